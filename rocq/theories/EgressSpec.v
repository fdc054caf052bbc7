(** * What the egress pipeline should do *)

From Coq Require Import ZArith List Bool.
From Verif Require Import OpenFlow EgressModel.
Import ListNotations.
Open Scope Z_scope.

(** OpenFlow 1.3.5, 5.9: write-metadata changes the masked bits. *)
Definition write_metadata (v m : Z) (p : packet) : packet :=
  let old := match pk_hdr p Metadata with Some x => x | None => 0 end in
  set_field Metadata (Z.lor (Z.ldiff old m) (Z.land v m)) p.
(** Instructions that only write metadata and go to a table. *)
Fixpoint md_insts (is_ : list instruction) (p : packet) : option (packet * Z) :=
  match is_ with
  | [Goto t] => Some (p, t)
  | WriteMetadata v m :: r => md_insts r (write_metadata v m p)
  | _ => None
  end.

(** The ports that are up, with their configuration, after events (oldest first). *)
Definition now_up (up : Z -> option eport) (e : xevent) : Z -> option eport :=
  match e with
  | XAdd p => fun n => if n =? ep_num p then Some p else up n
  | XDel m => fun n => if n =? m then None else up n
  | XConnect => fun _ => None
  end.
Definition up_after (evs : list xevent) : Z -> option eport := fold_left now_up evs (fun _ => None).

(** A port is deleted before it is added with another configuration. *)
Definition orderly_event (up : Z -> option eport) (e : xevent) : Prop :=
  match e with XAdd p => up (ep_num p) = None \/ up (ep_num p) = Some p | _ => True end.
Fixpoint orderly (up : Z -> option eport) (evs : list xevent) : Prop :=
  match evs with [] => True | e :: r => orderly_event up e /\ orderly (now_up up e) r end.

(** Port numbers and VLAN ids of 12 bits; the native VLAN is not also a tagged one. *)
Definition small_port (p : eport) : Prop :=
  0 < ep_num p < 4096 /\ NoDup (ep_tagged p) /\ (forall v, In v (ep_tagged p) \/ ep_native p = Some v -> 0 < v < 4096) /\
  (forall v, ep_native p = Some v -> ~ In v (ep_tagged p)).
Definition small (evs : list xevent) : Prop :=
  forall e, In e evs -> match e with XAdd p => small_port p | XDel n => 0 < n < 4096 | XConnect => True end.

(** The frame as the port carries it. *)
Definition as_carried (p : eport) (v : Z) (q q' : packet) : Prop :=
  pk_in q' = pk_in q /\ (forall f, f <> Metadata -> pk_hdr q' f = pk_hdr q f) /\
  ((In v (ep_tagged p) /\ pk_tags q' = pk_tags q) \/ (ep_native p = Some v /\ pk_tags q' = tl (pk_tags q))).
(** Same frame *)
Definition same_frame (q q' : packet) : Prop :=
  pk_in q' = pk_in q /\ (forall f, f <> Metadata -> pk_hdr q' f = pk_hdr q f) /\ pk_tags q' = pk_tags q.
