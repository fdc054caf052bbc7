(** * What the packet checks and addresses should do

    Independent of the code: the IPv4 header of RFC 791, MAC addresses as
    text, and counting. *)

From Coq Require Import List Bool NArith String.
Import ListNotations.
Open Scope N_scope.

(** A byte string. *)
Definition bytes (l : list N) : Prop := Forall (fun b => b < 256) l.

(** The fields of the IPv4 header at the start of [l] that matter here
    (RFC 791 section 3.1). *)
Record ipv4_header (l : list N) (ihl : N) (mf : bool) (frag : N) (proto : N) : Prop := {
  ih_bytes : bytes l;
  ih_ihl : exists version tl, l = (version * 16 + ihl) :: tl /\ ihl < 16;
  ih_frag : exists a b reserved df,
      nth_error l 6 = Some a /\ nth_error l 7 = Some b /\
      a * 256 + b =
        N.b2n reserved * 0x8000 + N.b2n df * 0x4000 + N.b2n mf * 0x2000 + frag /\
      frag < 0x2000;
  ih_proto : nth_error l 9 = Some proto;
  ih_len : 20 <= N.of_nat (List.length l) }.

(** A packet is a fragment when more fragments follow or it is not the first. *)
Definition is_fragment (mf : bool) (frag : N) : Prop := mf = true \/ frag <> 0.

(** Known to parse: ICMP, TCP, UDP. *)
Definition known_protocol (proto : N) : Prop := proto = 1 \/ proto = 6 \/ proto = 17.

(** The value of one hexadecimal digit, and the two-digit text of a byte. *)
Definition hex_digits : list string :=
  ["0"; "1"; "2"; "3"; "4"; "5"; "6"; "7"; "8"; "9"; "a"; "b"; "c"; "d"; "e"; "f"]%string.

Definition byte_text (b : N) : string :=
  (nth (N.to_nat (b / 16)) hex_digits "" ++ nth (N.to_nat (b mod 16)) hex_digits "")%string.

(** The usual text of the address made of these six bytes. *)
Definition mac_text (a b c d e f : N) : string :=
  (byte_text a ++ ":" ++ byte_text b ++ ":" ++ byte_text c ++ ":" ++
   byte_text d ++ ":" ++ byte_text e ++ ":" ++ byte_text f)%string.

(** A 48 bit mask with the top [k] bits set. *)
Definition is_prefix_mask (m k : N) : Prop :=
  k <= 48 /\ forall i, N.testbit m i = (48 - k <=? i) && (i <? 48).

(** How many of the arrivals have the time [t]. *)
Definition arrivals (t : N) (ts : list N) : N :=
  N.of_nat (List.length (filter (N.eqb t) ts)).

(** Arrivals paired with the decision taken on each: how many packets of time
    [t] were processed. *)
Definition processed (t : N) (ts : list N) (ignored : list bool) : N :=
  N.of_nat (List.length (filter (fun p => N.eqb t (fst p) && negb (snd p)) (combine ts ignored))).

Definition dropped (ignored : list bool) : N :=
  N.of_nat (List.length (filter (fun b => b) ignored)).

(** Time does not go back. *)
Fixpoint in_order (ts : list N) : Prop :=
  match ts with
  | [] => True
  | t :: r => Forall (fun u => t <= u) r /\ in_order r
  end.
