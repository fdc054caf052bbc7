(** * Python building blocks used throughout the model

    Transcriptions of the Python built-ins FAUCET relies on: insertion-ordered
    [dict], [sorted] (stable), [sorted(..., reverse=True)] (stable too). *)

From Coq Require Import List Bool ZArith Permutation.
Import ListNotations.

Section Dict.
  Context {K V : Type} (eqb : K -> K -> bool).

  (** [d[k] = v]: an existing key keeps its position. *)
  Fixpoint dict_put (k : K) (v : V) (d : list (K * V)) : list (K * V) :=
    match d with
    | [] => [(k, v)]
    | (k', v') :: r => if eqb k k' then (k', v) :: r else (k', v') :: dict_put k v r
    end.

  (** [d.get(k)] *)
  Fixpoint dict_get (k : K) (d : list (K * V)) : option V :=
    match d with
    | [] => None
    | (k', v) :: r => if eqb k k' then Some v else dict_get k r
    end.

  (** [d.pop(k, None)] / [del d[k]] *)
  Definition dict_del (k : K) (d : list (K * V)) : list (K * V) :=
    filter (fun kv => negb (eqb k (fst kv))) d.

  (** [{key(x): x for x in l}] *)
  Definition dict_of (key : V -> K) (l : list V) : list (K * V) :=
    fold_left (fun d x => dict_put (key x) x d) l [].
End Dict.

Section Sorted.
  Context {A : Type} (le : A -> A -> bool).

  (** Insert [x], which comes before all of [l] in the original order, keeping
      equal elements in their original order. *)
  Fixpoint py_insert (x : A) (l : list A) : list A :=
    match l with
    | [] => [x]
    | y :: r => if le x y then x :: y :: r else y :: py_insert x r
    end.

  (** [sorted(l)] for the preorder [le] (stable). *)
  Definition py_sorted (l : list A) : list A := fold_right py_insert [] l.
End Sorted.

(** [set(l)] of hashable values: membership only. *)
Definition mem {A} (eqb : A -> A -> bool) (x : A) (l : list A) : bool := existsb (eqb x) l.
