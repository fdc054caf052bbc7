(** * Port ranges

    config_parser.py 99-170 (_dp_add_ports). *)

From Coq Require Import ZArith List Bool.
From Verif Require Import PyBase.
Import ListNotations.
Open Scope Z_scope.

(** Characters: a digit, a hyphen or something else. *)
Inductive ch := Dig (d : Z) | Dash | Oth (c : Z).
Definition ch_eqb (a b : ch) : bool :=
  match a, b with
  | Dig x, Dig y => x =? y | Dash, Dash => true | Oth x, Oth y => x =? y | _, _ => false
  end.

(** int() of a string of digits *)
Definition int_of (ds : list Z) : Z := fold_left (fun n d => 10 * n + d) ds 0.

(** re.findall(r"(\d+-\d+)", s), as an automaton that reads [s] once: what has been
    read of a match.  A match cannot start at a hyphen and takes all digits it can. *)
Inductive rstate := RIdle | RStart (a : list Z) | RHyphen (a : list Z) | REnd (a b : list Z).
Fixpoint findall_ranges (st : rstate) (s : list ch) : list (list Z * list Z) :=
  match s with
  | [] => match st with REnd a b => [(a, b)] | _ => [] end
  | Dig d :: r =>
      match st with
      | RIdle => findall_ranges (RStart [d]) r
      | RStart a => findall_ranges (RStart (a ++ [d])) r
      | RHyphen a => findall_ranges (REnd a [d]) r
      | REnd a b => findall_ranges (REnd a (b ++ [d])) r
      end
  | Dash :: r =>
      match st with
      | RStart a => findall_ranges (RHyphen a) r
      | REnd a b => (a, b) :: findall_ranges RIdle r
      | _ => findall_ranges RIdle r
      end
  | Oth _ :: r =>
      match st with
      | REnd a b => (a, b) :: findall_ranges RIdle r
      | _ => findall_ranges RIdle r
      end
  end.
(** re.findall(r"\d+", s) *)
Fixpoint findall_digits (cur : list Z) (s : list ch) : list (list Z) :=
  match s with
  | [] => match cur with [] => [] | _ => [cur] end
  | Dig d :: r => findall_digits (cur ++ [d]) r
  | _ :: r => match cur with [] => findall_digits [] r | _ => cur :: findall_digits [] r end
  end.
(** re.sub(pat, "", s) for a pattern without special characters, not empty: [skip] is
    how much of a match is still to be left out. *)
Fixpoint prefixb (p s : list ch) : bool :=
  match p, s with
  | [], _ => true
  | x :: p', y :: s' => ch_eqb x y && prefixb p' s'
  | _ :: _, [] => false
  end.
Fixpoint re_sub (pat : list ch) (skip : nat) (s : list ch) : list ch :=
  match s with
  | [] => []
  | c :: r =>
      match skip with
      | S k => re_sub pat k r
      | O => if prefixb pat s then re_sub pat (length pat - 1) r else c :: re_sub pat O r
      end
  end.

Definition digits (ds : list Z) : list ch := map Dig ds.
(** the text of a match *)
Definition range_text (x : list Z * list Z) : list ch := digits (fst x) ++ Dash :: digits (snd x).
(** range(start, end + 1) *)
Definition span (a b : Z) : list Z := map (fun n => a + Z.of_nat n) (seq 0 (Z.to_nat (b + 1 - a))).

(** config_parser.py 134-150: the numbers of one key; [None] is an error *)
Definition port_nums (key : list ch) : option (list Z) :=
  let rs := findall_ranges RIdle key in
  if existsb (fun x => int_of (snd x) <=? int_of (fst x)) rs then None
  else
    let left := fold_left (fun s x => re_sub (range_text x) O s) rs key in
    let nums := flat_map (fun x => span (int_of (fst x)) (int_of (snd x))) rs ++ map int_of (findall_digits [] left) in
    match nums with [] => None | _ => Some nums end.

(** The configuration of a port: its attributes by name (numbers). *)
Definition conf := list (Z * Z).
Definition NUMBER : Z := 0.
(** config_parser.py 115-128 (_map_port_num_to_port): the configuration of ports by
    number ("number", otherwise the key; names are given as numbers that no port
    has). *)
Definition map_ports (ports : list (Z * conf)) : list (Z * (Z * conf)) :=
  fold_left (fun d p => dict_put Z.eqb (match dict_get Z.eqb NUMBER (snd p) with Some n => n | None => fst p end) p d) ports [].

(** dict.setdefault for every attribute *)
Definition setdefaults (c r : conf) : conf :=
  fold_left (fun c x => match dict_get Z.eqb (fst x) c with Some _ => c | None => dict_put Z.eqb (fst x) (snd x) c end) r c.
(** config_parser.py 156-163: the configuration of a range for one of its ports *)
Definition put_port (r : conf) (d : list (Z * (Z * conf))) (n : Z) : list (Z * (Z * conf)) :=
  match dict_get Z.eqb n d with
  | Some (k, c) => dict_put Z.eqb n (k, setdefaults c r) d
  | None => dict_put Z.eqb n (n, r) d
  end.
(** config_parser.py 130-163 (_parse_port_ranges); a set of numbers is a list, which
    may have duplicates *)
Fixpoint parse_ranges (ranges : list (list ch * conf)) (seen : list Z) (d : list (Z * (Z * conf)))
  : option (list (Z * (Z * conf))) :=
  match ranges with
  | [] => Some d
  | (key, r0) :: rest =>
      let r := dict_del Z.eqb NUMBER r0 in
      match port_nums key with
      | None => None
      | Some nums =>
          if existsb (fun n => mem Z.eqb n seen) nums then None
          else parse_ranges rest (seen ++ nums) (fold_left (put_port r) nums d)
      end
  end.
(** config_parser.py 165-170: the ports, by number *)
Definition add_ports (ports : list (Z * conf)) (ranges : list (list ch * conf)) : option (list (Z * (Z * conf))) :=
  parse_ranges ranges [] (map_ports ports).
