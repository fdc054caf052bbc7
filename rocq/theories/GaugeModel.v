(** * Gauge: which datapaths are polled, and who gets the replies

    gauge.py, gauge_pollers.py 31-250, with the application glue in valve_ryuapp.py
    157-211 and the registry of connected datapaths (OS-Ken's dpset), whose notifications
    are queued.  The configuration is given parsed: the watchers in the order of
    config_parser.py 343-378.  What watchers write (files, metrics) is not modelled, only
    which messages they are given; the port states that a port_state watcher is told when
    it starts (gauge.py 150-155) are left out, so are the messages that set up the
    connection (168-169) and closing a connection that is lost already. *)

From Coq Require Import ZArith List Bool.
From Verif Require Import PyBase.
Import ListNotations.
Open Scope Z_scope.

Inductive wtype := PortState | PortStats | FlowTable | MeterStats.
Definition wtype_eqb (a b : wtype) : bool :=
  match a, b with
  | PortState, PortState | PortStats, PortStats | FlowTable, FlowTable | MeterStats, MeterStats => true
  | _, _ => false
  end.
(** A configured watcher; [wc_name] tells watchers apart. *)
Record wconf := mkWconf { wc_dp : Z; wc_type : wtype; wc_name : Z }.

(** gauge_pollers.py 34-43, 160-164: a watcher object. [o_conn]: ryudp, [o_thread]: thread *)
Record wobj := mkWobj { o_conf : wconf; o_running : bool; o_conn : option Z; o_thread : option Z }.

(** [g_objs]: the objects by address; [g_live]: the threads that run, with the object that
    each runs for; [g_dpset]: the registry, datapath to connection; [g_queue]: its
    notifications that were not handled yet ([None]: the datapath left). *)
Record gstate := mkGstate {
  g_watchers : list (Z * list (wtype * list Z));
  g_objs : Z -> wobj;
  g_live : list (Z * Z);
  g_next_obj : Z; g_next_thread : Z;
  g_dpset : Z -> option Z;
  g_queue : list (Z * option Z) }.

Definition no_obj : wobj := mkWobj (mkWconf 0 PortState 0) false None None.
Definition gauge_start : gstate := mkGstate [] (fun _ => no_obj) [] 0 0 (fun _ => None) [].

Definition set_obj (s : gstate) (o : Z) (w : wobj) : gstate :=
  mkGstate (g_watchers s) (fun x => if x =? o then w else g_objs s x) (g_live s) (g_next_obj s) (g_next_thread s) (g_dpset s) (g_queue s).
Definition set_live (s : gstate) (l : list (Z * Z)) : gstate :=
  mkGstate (g_watchers s) (g_objs s) l (g_next_obj s) (g_next_thread s) (g_dpset s) (g_queue s).

(** Pollers with a thread are those of statistics (watcher.py 44-77, gauge_pollers.py
    149-292). *)
Definition threaded (t : wtype) : bool := match t with PortState => false | _ => true end.
(** gauge_pollers.py 69-72, 180-181 (is_active) *)
Definition is_active (w : wobj) : bool := match o_thread w with Some _ => true | None => false end.
(** gauge_pollers.py 60-63, 173-178 (stop) *)
Definition stop (s : gstate) (o : Z) : gstate :=
  let w := g_objs s o in
  let s1 := set_obj s o (mkWobj (o_conf w) false (o_conn w) (o_thread w)) in
  if threaded (wc_type (o_conf w)) then
    match o_thread w with
    | Some t => set_live (set_obj s1 o (mkWobj (o_conf w) false (o_conn w) None))
                         (filter (fun q => negb (fst q =? t)) (g_live s1))
    | None => s1
    end
  else s1.
(** gauge_pollers.py 53-58, 166-171 (start) *)
Definition start (s : gstate) (o conn : Z) (active : bool) : gstate :=
  let s0 := if threaded (wc_type (o_conf (g_objs s o))) then stop s o else s in
  let w := g_objs s0 o in
  let s1 := set_obj s0 o (mkWobj (o_conf w) true (Some conn) (o_thread w)) in
  if threaded (wc_type (o_conf w)) && active then
    let t := g_next_thread s1 in
    let s2 := set_obj s1 o (mkWobj (o_conf w) true (Some conn) (Some t)) in
    mkGstate (g_watchers s2) (g_objs s2) ((t, o) :: g_live s2) (g_next_obj s2) (t + 1) (g_dpset s2) (g_queue s2)
  else s1.

(** gauge.py 143-155 (_start_watchers): the first watcher of each type is the active one. *)
Definition start_list (conn : Z) (s : gstate) (l : list Z) : gstate :=
  match l with
  | [] => s
  | o :: r => fold_left (fun s o => start s o conn false) r (start s o conn true)
  end.
Definition start_watchers (conn : Z) (ws : list (wtype * list Z)) (s : gstate) : gstate :=
  fold_left (fun s q => start_list conn s (snd q)) ws s.
(** gauge.py 173-179 (_stop_watchers) *)
Definition stop_watchers (ws : list (wtype * list Z)) (s : gstate) : gstate :=
  fold_left (fun s q => fold_left (fun s o => if is_active (g_objs s o) then stop s o else s) (snd q) s) ws s.

(** gauge.py 94-101: watchers by datapath and type; objects are numbered from [o]. *)
Fixpoint file (o : Z) (confs : list wconf) (acc : list (Z * list (wtype * list Z))) : list (Z * list (wtype * list Z)) :=
  match confs with
  | [] => acc
  | c :: r =>
    let of_dp := match dict_get Z.eqb (wc_dp c) acc with Some x => x | None => [] end in
    let of_type := match dict_get wtype_eqb (wc_type c) of_dp with Some x => x | None => [] end in
    file (o + 1) r (dict_put Z.eqb (wc_dp c) (dict_put wtype_eqb (wc_type c) (of_type ++ [o]) of_dp) acc)
  end.
(** gauge.py 80-85, gauge_pollers.py 34-43: new objects *)
Definition objects (s : gstate) (confs : list wconf) : Z -> wobj :=
  fun x => match nth_error confs (Z.to_nat (x - g_next_obj s)) with
           | Some c => if g_next_obj s <=? x then mkWobj c false None None else g_objs s x
           | None => g_objs s x
           end.
(** gauge.py 71-118 (_load_config); [None]: the configuration is invalid *)
Definition load_config (confs : option (list wconf)) (s : gstate) : gstate :=
  match confs with
  | None => s
  | Some cs =>
    let s0 := mkGstate (g_watchers s) (objects s cs) (g_live s) (g_next_obj s + Z.of_nat (length cs)) (g_next_thread s)
                       (g_dpset s) (g_queue s) in
    let s1 := fold_left (fun s q => stop_watchers (snd q) s) (g_watchers s) s0 in
    let new := file (g_next_obj s) cs [] in
    let s2 := fold_left (fun s q => match g_dpset s (fst q) with
                                    | Some conn => start_watchers conn (snd q) s
                                    | None => s
                                    end) new s1 in
    mkGstate new (g_objs s2) (g_live s2) (g_next_obj s2) (g_next_thread s2) (g_dpset s2) (g_queue s2)
  end.

(** What is sent to switches and given to watchers *)
Inductive gout :=
| ORequest (conn : Z) (t : wtype)
| OUpdate (w : wconf) (m : Z)
| OClose (conn : Z).

(** valve_ryuapp.py (_get_datapath_obj, connect_or_disconnect_handler, reconnect_handler),
    gauge.py 158-170, 182-192
    (_datapath_connect, _datapath_disconnect) *)
Definition handle (dp : Z) (conn : option Z) (s : gstate) : gstate * list gout :=
  match dict_get Z.eqb dp (g_watchers s) with
  | None => (s, match conn with Some c => [OClose c] | None => [] end)
  | Some ws => (match conn with Some c => start_watchers c ws s | None => stop_watchers ws s end, [])
  end.
(** gauge.py 121-128 (_update_watcher), gauge_pollers.py 90-109 (update) *)
Definition reply (dp conn : Z) (t : wtype) (m : Z) (s : gstate) : list gout :=
  match dict_get Z.eqb dp (g_watchers s) with
  | None => [OClose conn]
  | Some ws =>
    match dict_get wtype_eqb t ws with
    | None => []
    | Some l => flat_map (fun o => if o_running (g_objs s o) then [OUpdate (o_conf (g_objs s o)) m] else []) l
    end
  end.
(** gauge_pollers.py 183-250 (__call__, send_req): a thread sends its next request. *)
Definition poll (t : Z) (s : gstate) : list gout :=
  match dict_get Z.eqb t (g_live s) with
  | Some o => match o_conn (g_objs s o) with Some c => [ORequest c (wc_type (o_conf (g_objs s o)))] | None => [] end
  | None => []
  end.

(** Datapaths connect, again perhaps before the old connection is known to be lost;
    connections are lost; a notification is handled; Gauge is told to reload; a switch
    sends statistics or a port status; a thread sends a request. *)
Inductive gevent :=
| GConnect (dp conn : Z)
| GLost (dp conn : Z)
| GHandle
| GReload (confs : option (list wconf))
| GReply (dp conn : Z) (t : wtype) (m : Z)
| GPoll (thread : Z).
Definition set_reg (s : gstate) (dp : Z) (c : option Z) : gstate :=
  mkGstate (g_watchers s) (g_objs s) (g_live s) (g_next_obj s) (g_next_thread s)
    (fun x => if x =? dp then c else g_dpset s x) (g_queue s ++ [(dp, c)]).
Definition pop (s : gstate) : gstate :=
  mkGstate (g_watchers s) (g_objs s) (g_live s) (g_next_obj s) (g_next_thread s) (g_dpset s) (tl (g_queue s)).
Definition gstep (s : gstate) (ev : gevent) : gstate * list gout :=
  match ev with
  | GConnect dp conn => (set_reg s dp (Some conn), [])
  | GLost dp conn => if match g_dpset s dp with Some c => c =? conn | None => false end then (set_reg s dp None, []) else (s, [])
  | GHandle => match g_queue s with [] => (s, []) | (dp, conn) :: _ => handle dp conn (pop s) end
  | GReload confs => (load_config confs s, [])
  | GReply dp conn t m => (s, reply dp conn t m s)
  | GPoll t => (s, poll t s)
  end.
