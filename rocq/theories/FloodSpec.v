(** * What flooding should do, in terms of membership and emissions *)
From Coq Require Import ZArith List Bool.
From Verif Require Import OpenFlow FloodModel.
Import ListNotations.
Open Scope Z_scope.

Definition members (v : vlan) : list port := v_tagged v ++ v_untagged v ++ v_dot1x v.
Definition is_tagged (v : vlan) (q : port) : Prop := In q (v_tagged v).
Definition is_untagged (v : vlan) (q : port) : Prop := In q (v_untagged v ++ v_dot1x v).

(** What the configuration checks guarantee of a VLAN: every member is listed
    once (a port whose 802.1X VLAN is its own native VLAN would be listed twice
    and is not covered), port numbers are real, and mirror destinations are not
    members (port.py 321-380: mirror ports carry no VLANs). *)
Record wf_vlan (v : vlan) : Prop := {
  wf_nodup : NoDup (map p_num (members v));
  wf_range : forall a, In a (members v) -> 0 < p_num a < OFPP_MAX;
  wf_mirror : forall a n, In a (members v) -> In n (p_mirror a) ->
      0 < n < OFPP_MAX /\ forall b, In b (members v) -> p_num b <> n
}.

(** Is [q] the LAG member that carries floods: selected, up, and the first such
    member of its LAG. *)
Definition lag_carrier (v : vlan) (q : port) : Prop :=
  p_selected q = true /\ p_actor_up q = true /\
  exists l1 l2, members v = l1 ++ q :: l2 /\
    forall r, In r l1 -> p_lacp r = p_lacp q -> ~ (p_selected r = true /\ p_actor_up r = true).

(** Is [q] the one external port that carries floods: the up external port with
    the smallest number. *)
Definition external_carrier (v : vlan) (q : port) : Prop :=
  forall r, In r (members v) -> p_external r = true -> p_phys_up r = true -> p_num q <= p_num r.

(** The ports a frame that entered on [i] ([None]: anywhere) is to be flooded to. *)
Definition eligible (v : vlan) (unicast no_external no_restricted : bool) (i : option port) (q : port) : Prop :=
  In q (members v) /\
  (unicast = true -> p_unicast_flood q = true) /\
  (match i with Some i => p_num q <> p_num i | None => True end) /\
  (p_lacp q <> 0 -> lag_carrier v q /\ match i with Some i => p_lacp i <> p_lacp q | None => True end) /\
  (p_external q = true -> p_phys_up q = true ->
      no_external = false /\ external_carrier v q /\
      match i with Some i => p_external i = false | None => True end) /\
  (no_restricted = true -> p_restricted q = false) /\
  (In q (v_untagged v) -> p_dot1x_vlan q = None \/ p_dot1x_vlan q = Some (v_vid v)).

Definition same_frame_tagged (p q : packet) : Prop :=
  pk_in q = pk_in p /\ pk_hdr q = pk_hdr p /\
  exists vid pcp pcp' r, pk_tags p = (vid, pcp) :: r /\ pk_tags q = (vid, pcp') :: r.
Definition same_frame_untagged (p q : packet) : Prop :=
  pk_in q = pk_in p /\ pk_hdr q = pk_hdr p /\ pk_tags q = tl (pk_tags p).

(** the copies of a frame emitted on port number [n] *)
Definition copies (n : Z) (es : list emission) : list packet :=
  map snd (filter (fun e => fst e =? n) es).

(** [es] is what flooding frame [p] should emit: each eligible member gets the
    frame exactly once, tagged or untagged as configured, no other member gets
    it, and any other port that does is a mirror of an eligible member (the
    reserved IN_PORT, the hairpin copy, is specified separately). *)
Definition floods (v : vlan) (unicast no_external no_restricted : bool) (i : option port)
           (p : packet) (es : list emission) : Prop :=
  (forall q, is_tagged v q -> eligible v unicast no_external no_restricted i q ->
     exists p', copies (p_num q) es = [p'] /\ same_frame_tagged p p') /\
  (forall q, is_untagged v q -> eligible v unicast no_external no_restricted i q ->
     exists p', copies (p_num q) es = [p'] /\ same_frame_untagged p p') /\
  (forall q, In q (members v) -> copies (p_num q) es <> [] ->
     eligible v unicast no_external no_restricted i q) /\
  (forall n, n <> OFPP_IN_PORT -> (forall q, In q (members v) -> p_num q <> n) -> copies n es <> [] ->
     exists q, eligible v unicast no_external no_restricted i q /\ In n (p_mirror q)).

(** what leaves the switch when a frame that entered on port number [n] causes
    emissions [es] *)
Definition wire (n : Z) (es : list emission) : list emission :=
  flat_map (fun e => match transmit n e with Some x => [x] | None => [] end) es.

(** The same on the wire, for a frame that entered on member [i]: the hairpin
    copy is included. *)
Definition delivers (v : vlan) (unicast no_external no_restricted : bool) (i : port)
           (p : packet) (ws : list emission) : Prop :=
  (forall q, is_tagged v q -> eligible v unicast no_external no_restricted (Some i) q ->
     exists p', copies (p_num q) ws = [p'] /\ same_frame_tagged p p') /\
  (forall q, is_untagged v q -> eligible v unicast no_external no_restricted (Some i) q ->
     exists p', copies (p_num q) ws = [p'] /\ same_frame_untagged p p') /\
  (forall q, In q (members v) -> p_num q <> p_num i -> copies (p_num q) ws <> [] ->
     eligible v unicast no_external no_restricted (Some i) q) /\
  (p_hairpin i = true /\ (unicast = true -> p_unicast_flood i = true) ->
     exists p', copies (p_num i) ws = [p'] /\
       (is_tagged v i -> same_frame_tagged p p') /\ (is_untagged v i -> same_frame_untagged p p')) /\
  (~ (p_hairpin i = true /\ (unicast = true -> p_unicast_flood i = true)) -> copies (p_num i) ws = []) /\
  (forall n, (forall q, In q (members v) -> p_num q <> n) -> copies n ws <> [] ->
     exists q, eligible v unicast no_external no_restricted (Some i) q /\ In n (p_mirror q)).
