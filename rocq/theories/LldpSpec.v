(** * What beacons are for

    Nothing here depends on how beacons are put together or parsed, but for the names
    of the fields of the configuration. *)

From Coq Require Import ZArith List.
From Verif Require Import LldpModel.
Import ListNotations.
Open Scope Z_scope.

(** What the configuration checks guarantee of a datapath and a port that sends
    beacons (dp.py 354-361, 413-419, port.py 375-465), but for the identifier of the
    datapath, which may be zero by them.  A TLV holds up to 511 bytes. *)
Definition sane (c : beacon_conf) : Prop :=
  length (b_mac c) = 6%nat /\
  0 < b_dp_id c < 2 ^ 64 /\ 0 < b_port c < 2 ^ 32 /\ 1 <= b_send_interval c /\
  (length (b_dp_name c) <= 511)%nat /\
  (forall n, b_dp_system_name c = Some n \/ b_port_system_name c = Some n -> (length n <= 511)%nat) /\
  (forall d, b_port_descr c = Some d -> (length d <= 511)%nat) /\
  (forall oui s info, In (oui, s, info) (b_org_tlvs c) ->
     length oui = 3%nat /\ (length info <= 507)%nat) /\
  (forall s, b_stack c = Some s -> In s [-1; 0; 1; 2; 3; 4]).

(** The port calls itself by the name of its datapath, and no TLV has been configured
    for it that has the OUI which FAUCET uses. *)
Definition plain (c : beacon_conf) : Prop :=
  (b_port_system_name c = None \/ b_port_system_name c = Some (b_dp_name c)) /\
  (b_dp_system_name c = None \/ b_dp_system_name c = Some (b_dp_name c)) /\
  (forall oui s info, In (oui, s, info) (b_org_tlvs c) -> oui <> firstn 3 (b_mac c)).

(** What a controller gets of a frame: it may have been padded, and a switch that is
    told to send 128 bytes sends that many, or more. *)
Definition arrives (frame data : bytes) : Prop :=
  exists padding n, (128 <= n)%nat /\ data = firstn n (frame ++ padding).

(** The port at the other end is this one. *)
Definition leads_to (peer : Z * bytes * Z) (c : beacon_conf) : Prop :=
  peer = (b_dp_id c, b_dp_name c, b_port c).

(** The TLV is FAUCET's, the OUI being the start of the MAC address. *)
Definition has_oui (mac : bytes) (t : tlv) : Prop :=
  exists s info, t = Org (firstn 3 mac) s info.

(** Text that is a number: digits, with single underscores between them at most, after
    a sign or none, with white space around it or none. *)
Inductive numeral : bytes -> Prop :=
| num_one : forall c, 48 <= c <= 57 -> numeral [c]
| num_more : forall c r, 48 <= c <= 57 -> numeral r -> numeral (c :: r)
| num_underscore : forall c r, 48 <= c <= 57 -> numeral r -> numeral (c :: 95 :: r).
Definition white (b : bytes) : Prop := forall c, In c b -> c = 32 \/ 9 <= c <= 13.
Definition number_text (b : bytes) : Prop :=
  exists l sign d t, b = l ++ sign ++ d ++ t /\ white l /\ white t /\ In sign [[]; [43]; [45]] /\ numeral d.
