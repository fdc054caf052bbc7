(** * What coprocessors may rely on *)

From Coq Require Import ZArith List Bool.
From Verif Require Import OpenFlow CoproModel.
Import ListNotations.
Open Scope Z_scope.

(** Each VLAN ID stands for one port: ports have their own numbers, the IDs are VLAN IDs, and where
    those of several coprocessors meet they mean the same.  The tables are different ones. *)
Record cop_ok (cfg : copconf) : Prop := {
  ok_nums : NoDup (map fst (co_ports cfg));
  ok_vids : forall c base n, In (c, Some base) (co_ports cfg) -> In n (map fst (co_ports cfg)) -> 0 < base + n < 4096;
  ok_one : forall c base n c' base' n', In (c, Some base) (co_ports cfg) -> In (c', Some base') (co_ports cfg) ->
    In n (map fst (co_ports cfg)) -> In n' (map fst (co_ports cfg)) -> base + n = base' + n' -> n = n';
  ok_tables : NoDup [co_vlan cfg; co_copro cfg; co_src cfg];
  ok_next : co_output cfg <> co_copro cfg /\ co_dst cfg <> co_copro cfg;
  ok_prio : co_lowest cfg < co_high cfg }.

(** A message of another part of the controller: it changes no rule of the coprocessors.  It is not
    for the table of coprocessors (nor for all tables), does not lead there, and does not add, change
    or remove a rule in the VLAN table for all frames of a coprocessor port at low priority. *)
Definition elsewhere (cfg : copconf) (m : ofmsg) : Prop :=
  match m with
  | FlowMod fm =>
      fm_table fm <> co_copro cfg /\ fm_table fm <> OFPTT_ALL /\ ~ In (Goto (co_copro cfg)) (fm_inst fm)
      /\ (fm_table fm = co_vlan cfg -> forall c base, In (c, Some base) (co_ports cfg) ->
            match fm_cmd fm with
            | FAdd | FModifyStrict | FDeleteStrict => fm_prio fm <> co_low cfg \/ fm_match fm <> [exact InPort c]
            | FModify | FDelete => covers (fm_match fm) [exact InPort c] = false
            end)
  | _ => True
  end.
Definition cop_events (cfg : copconf) (es : list copevent) : Prop :=
  Forall (fun e => match e with CopOther m => elsewhere cfg m | CopUp _ => True end) es.

(** A frame that nothing else in the VLAN table takes first: every other rule there that the frame
    matches has lower priority than those that divert coprocessors' frames. *)
Definition unfiltered (cfg : copconf) (s : switch) (pk : packet) : Prop :=
  forall f, In f (sw_flows s) -> f_table f = co_vlan cfg -> matches pk (f_match f) = true ->
    f_match f = [exact InPort (pk_in pk)] /\ f_prio f = co_low cfg \/ f_prio f < co_low cfg.

(** The tables just cleared: nothing in them is about coprocessors yet. *)
Definition fresh_switch (cfg : copconf) (s : switch) : Prop :=
  forall f, In f (sw_flows s) ->
    f_table f <> co_copro cfg /\ ~ In (Goto (co_copro cfg)) (f_inst f)
    /\ forall c base, In (c, Some base) (co_ports cfg) ->
         ~ (f_table f = co_vlan cfg /\ f_prio f = co_low cfg /\ f_match f = [exact InPort c]).
