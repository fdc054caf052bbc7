(** * What is expected of the pipeline *)

From Coq Require Import ZArith QArith List Bool.
From Verif Require Import OpenFlow PipelineModel.
Import ListNotations.
Open Scope Z_scope.

(** A flow keeps to the pipeline if it is in one of its tables and sends packets on
    only where the code does. *)
Definition follows (f : features) (fl : flow) : Prop :=
  exists t, included f t = true /\ f_table fl = table_id f t /\
    forall n, In (Goto n) (f_inst fl) ->
      exists u, n = table_id f u /\ (In u (code_gotos f t) \/ miss_goto f t = Some u).

(** The number of flows a table is sized for: [n] VLANs, [p] ports and the configured
    factor [k], twice with external ports. *)
Definition need (s : sizing) (t : tname) : Q :=
  let n := inject_Z (sz_vlans s) in
  let p := inject_Z (sz_ports s) in
  let k := sz_scale s in
  let e := (if sz_externals s then 2 else 1)%Q in
  (match t with
   | Vip => e * 8 * n
   | Vlan => e * 3 * n * p * k
   | Copro | Egress => e * (3 # 2) * n * p * k
   | EthSrc | Hairpin | EthDst => e * (41 # 10) * n * p * k
   | Fib4 | Fib6 => e * (31 # 10) * n * p * k
   | Flood => e * 8 * n * p * k * (if sz_comb s then p else 1) * (if sz_restricted s then 2 else 1)
   | PortAcl | VlanAcl | EgressAcl | Classification => e
   end)%Q.

Definition sizing_ok (s : sizing) : Prop :=
  0 <= sz_vlans s /\ 0 <= sz_ports s /\ (0 <= sz_scale s)%Q /\ 0 < sz_min s.
