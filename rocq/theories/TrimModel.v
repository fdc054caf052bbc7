(** * Instruction trimming and VID encoding: valve_table.py 178-226, valve_of.py 463-549 *)

From Coq Require Import ZArith List Bool.
From Verif Require Import PyBase OpenFlow.
Import ListNotations.
Open Scope Z_scope.

(** valve_table.py 182: action.type in (OFPAT_GROUP, OFPAT_OUTPUT) *)
Definition is_out_or_group (a : action) : bool :=
  match a with Output _ _ | GroupAct _ => true | _ => false end.

(** valve_table.py 178-188: the loop of _trim_actions, (new_actions, pending_actions) *)
Definition trim_step (st : list action * list action) (a : action) : list action * list action :=
  let '(new_, pending) := st in
  if is_out_or_group a then (new_ ++ pending ++ [a], []) else (new_, pending ++ [a]).
Definition trim_loop (acts : list action) : list action := fst (fold_left trim_step acts ([], [])).

(** valve_table.py 189-198: set_fields and the assertion.  [allowed] is
    [table.set_fields]; [None] stands for the all-tables table, which is not
    checked. *)
Definition set_fields_of (acts : list action) : list field :=
  flat_map (fun a => match a with SetField f _ => [f] | _ => [] end) acts.
Definition trim_actions (allowed : option (list field)) (acts : list action) : option (list action) :=
  let new_ := trim_loop acts in
  match allowed with
  | None => Some new_
  | Some fs => if forallb (fun f => existsb (field_eqb f) fs) (set_fields_of new_)
               then Some new_ else None
  end.

Definition is_apply (i : instruction) : bool := match i with Apply _ => true | _ => false end.
Definition is_goto (i : instruction) : bool := match i with Goto _ => true | _ => false end.
Definition has_recirc (acts : list action) : bool :=
  existsb (fun a => match a with CtAct r _ => r | _ => false end) acts.

(** valve_table.py 206-225: one instruction of the loop of _trim_inst; the
    in-place update of [instruction.actions] is modelled in [shared_*] below. *)
Definition trim_one (allowed : option (list field)) (goto_present : bool) (i : instruction)
  : option (list instruction) :=
  match i with
  | Apply acts =>
      match (if negb goto_present && negb (has_recirc acts) then trim_actions allowed acts else Some acts) with
      | None => None
      | Some [] => Some []
      | Some acts' => Some [Apply acts']
      end
  | _ => Some [i]
  end.
Fixpoint trim_list (allowed : option (list field)) (g : bool) (l : list instruction)
  : option (list instruction) :=
  match l with
  | [] => Some []
  | i :: r => match trim_one allowed g i, trim_list allowed g r with
              | Some a, Some b => Some (a ++ b)
              | _, _ => None
              end
  end.
(** valve_table.py 201-226 (_trim_inst); [None] is the AssertionError. *)
Definition trim_inst (allowed : option (list field)) (inst : list instruction) : option (list instruction) :=
  if existsb is_apply inst then trim_list allowed (existsb is_goto inst) inst else Some inst.

(** ** Sharing of instruction objects

    [apply_actions] (valve_of.py 463-476) is memoised: equal action tuples give
    the same instruction object, and [_trim_inst] assigns to that object's
    [actions].  The store maps the memo key to the current actions. *)
Inductive iref := RApply (key : list action) | ROther (i : instruction).
Definition store : Type := list (list action * list action).
Definition acts_eqb (a b : list action) : bool :=
  if list_eq_dec action_eq_dec a b then true else false.
Definition current (st : store) (key : list action) : list action :=
  match dict_get acts_eqb key st with Some a => a | None => key end.
Definition deref1 (st : store) (i : iref) : instruction :=
  match i with RApply k => Apply (current st k) | ROther j => j end.
Definition deref (st : store) (l : list iref) : list instruction := map (deref1 st) l.

(** valve_table.py 201-226 with the in-place update, for a table without a
    set_field restriction (the all-tables table) *)
Fixpoint shared_trim_list (g : bool) (l : list iref) (st : store) : list iref * store :=
  match l with
  | [] => ([], st)
  | RApply k :: r =>
      let acts := current st k in
      let acts' := if negb g && negb (has_recirc acts) then trim_loop acts else acts in
      let st' := dict_put acts_eqb k acts' st in
      let '(r', st'') := shared_trim_list g r st' in
      (match acts' with [] => r' | _ => RApply k :: r' end, st'')
  | i :: r => let '(r', st') := shared_trim_list g r st in (i :: r', st')
  end.
Definition ref_is_goto (i : iref) : bool := match i with ROther (Goto _) => true | _ => false end.
(** Building several flows one after the other (each call of ValveTable.flowmod
    trims its instructions): the reference lists of all flows and the final store. *)
Fixpoint build_flows (fl : list (list iref)) (st : store) : list (list iref) * store :=
  match fl with
  | [] => ([], st)
  | i :: r => let '(i', st1) := shared_trim_list (existsb ref_is_goto i) i st in
              let '(r', st2) := build_flows r st1 in (i' :: r', st2)
  end.
(** The instruction lists finally sent: references are followed when the
    messages are serialised, after all flows of the batch are built. *)
Definition sent_flows (fl : list (list iref)) : list (list instruction) :=
  let '(l, st) := build_flows fl [] in map (deref st) l.

(** valve_of.py 530-538 (vid_present), 541-549 (devid_present) *)
Definition vid_present (vid : Z) : Z := Z.lor vid OFPVID_PRESENT.
Definition devid_present (vid : Z) : Z := Z.lxor vid OFPVID_PRESENT.
