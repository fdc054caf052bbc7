(** * What the VLANs of tunnels should be *)

From Coq Require Import ZArith List Bool.
From Verif Require Import PyBase TunnelIdModel.
Import ListNotations.
Open Scope Z_scope.

(** [v] is the least number from [start] that is not used. *)
Definition least_free (used : list Z) (start v : Z) : Prop :=
  start <= v /\ ~ In v used /\ forall w, start <= w < v -> In w used.

(** The VLAN of a tunnel is chosen automatically if it has no ID and no tunnel before
    it in the same ACL has the same destination. *)
Definition chosen (before : log) (name : Z) (t : tunnel) : Prop :=
  tn_id t = NoId /\ forall t' v', In (name, t', v') before -> tn_dst t' <> tn_dst t.

(** The highest ordinary VLAN. *)
Definition highest (vs : vlans) (m : Z) : Prop := In (m, false) vs /\ forall v, In (v, false) vs -> v <= m.
(** Number of tunnels of ACLs whose name is not above this one's. *)
Fixpoint total (acls : list (Z * list tunnel)) : Z :=
  match acls with [] => 0 | (_, ts) :: r => Z.of_nat (length ts) + total r end.
Definition total_upto (acls : list (Z * list tunnel)) (name : Z) : Z := total (filter (fun a => fst a <=? name) acls).

(** The VLANs of the tunnels of an ACL. *)
Definition ids_of (l : log) (name : Z) : list (tunnel * Z) :=
  map (fun x => (snd (fst x), snd x)) (filter (fun x => fst (fst x) =? name) l).

(** Every ACL leaves at most one VLAN to be chosen. *)
Definition one_choice (ts : list tunnel) : Prop :=
  forall t t', In t ts -> In t' ts -> tn_id t = NoId -> tn_id t' = NoId -> tn_dst t = tn_dst t'.
(** No reserved VLAN and no VLAN ID given for a tunnel is just above the ordinary
    VLANs, where VLANs are chosen from. *)
Definition out_of_the_way (c : config) (vs : vlans) : Prop :=
  forall m, highest vs m ->
    (forall x, In (x, true) vs -> ~ m < x <= m + total (cf_acls c)) /\
    (forall name ts t x, In (name, ts) (cf_acls c) -> In t ts -> tn_id t = Vid x -> ~ m < x <= m + total (cf_acls c)).
