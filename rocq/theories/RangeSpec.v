(** * What port ranges mean *)

From Coq Require Import ZArith List Bool.
From Verif Require Import PyBase RangeModel.
Import ListNotations.
Open Scope Z_scope.

(** A key is a list of numbers and ranges, with separators (no digits or hyphens)
    before and between them and at the end. *)
Inductive item := Single (ds : list Z) | Range (a b : list Z).
Definition item_text (i : item) : list ch :=
  match i with
  | Single ds => digits ds
  | Range a b => digits a ++ Dash :: digits b
  end.
Record key := mkKey { k_items : list (list Z * item); k_end : list Z }.
Definition key_text (k : key) : list ch :=
  concat (map (fun x => map Oth (fst x) ++ item_text (snd x)) (k_items k)) ++ map Oth (k_end k).
(** Numbers have digits and items are separated. *)
Definition item_ok (i : item) : Prop := match i with Single ds => ds <> [] | Range a b => a <> [] /\ b <> [] end.
Definition key_ok (k : key) : Prop :=
  Forall (fun x => item_ok (snd x)) (k_items k) /\
  match k_items k with [] => True | _ :: rest => Forall (fun x => fst x <> []) rest end.

(** the ports an item names *)
Definition names_ (i : item) (n : Z) : Prop :=
  match i with Single ds => n = int_of ds | Range a b => int_of a <= n <= int_of b end.
Definition named (k : key) (n : Z) : Prop := exists s i, In (s, i) (k_items k) /\ names_ i n.

(** The text of one range is never a part of the text of another one. *)
Definition clear_ranges (k : key) : Prop :=
  forall s i a b s' i' a' b' l r, In (s, i) (k_items k) -> i = Range a b -> In (s', i') (k_items k) -> i' = Range a' b' ->
    item_text i' = l ++ item_text i ++ r -> l = [] /\ r = [].
(** Ranges go up. *)
Definition ranges_up (k : key) : Prop := forall s a b, In (s, Range a b) (k_items k) -> int_of a < int_of b.

(** The configuration of a port from its own and a range's: its own comes first. *)
Definition combines (c r c' : conf) : Prop :=
  forall a, dict_get Z.eqb a c' =
    match dict_get Z.eqb a c with
    | Some v => Some v
    | None => if a =? NUMBER then None else dict_get Z.eqb a r
    end.
(** what a range does to the configuration of a port: its own configuration comes
    first; a port without one is created *)
Definition after_range (r : conf) (n : Z) (o o' : option (Z * conf)) : Prop :=
  match o with
  | Some (k, c) => exists c', o' = Some (k, c') /\ combines c r c'
  | None => exists c', o' = Some (n, c') /\ combines [] r c'
  end.
(** No number is in two keys. *)
Fixpoint disjoint_keys (ls : list (list Z)) : Prop :=
  match ls with
  | [] => True
  | l :: r => (forall l' n, In l' r -> In n l -> ~ In n l') /\ disjoint_keys r
  end.
