(** * C78: the event socket *)

From Coq Require Import ZArith List Bool Lia Sorted.
From Verif Require Import EventModel EventSpec EventProofs.
Import ListNotations.
Open Scope Z_scope.

Section Events.
Variable E : Type.

(** C78 — What a client receives is an event that happened, under its own number. *)
Theorem C78_true : forall evs s out c id e, ereach E evs s out -> In (Received E c id e) out -> numbered E evs id e.
Proof. intros evs s out c id e R H. destruct (ereach_inv E _ _ _ R) as (a & I). exact (ei_out _ _ _ _ _ I c id e H). Qed.

(** C78 — Over all clients, events are received in the order in which they happened,
    none twice. *)
Theorem C78_in_order : forall evs s out, ereach E evs s out -> StronglySorted Z.lt (ids E out).
Proof. intros evs s out R. destruct (ereach_inv E _ _ _ R) as (a & I). exact (ei_sorted _ _ _ _ _ I). Qed.

(** C78 — An event that nobody received waits, or was being written to a client that was
    gone, or has had 120 or more events after it. *)
Theorem C78_accounted : forall evs s out id, ereach E evs s out -> 1 <= id <= Z.of_nat (length (happened E evs)) ->
  In id (ids E out) \/ waiting E s id \/ cut_off E evs id \/ overtaken E evs id.
Proof.
  intros evs s out id R H. destruct (ereach_inv E _ _ _ R) as (a & I). destruct (Z.ltb_spec id a) as [L|L].
  - destruct (ei_gone _ _ _ _ _ I id ltac:(lia)) as [K|[K|[K|K]]]; unfold waiting; auto.
  - right; left; left. destruct (ei_q _ _ _ _ _ I) as [J1 J2].
    destruct (nth_error (ev_q E s) (Z.to_nat (id - a))) as [[i e]|] eqn:En.
    + destruct (J2 _ _ En) as [K _]. cbn [fst] in K. exists e. apply nth_error_In in En. replace id with i by lia. exact En.
    + apply nth_error_None in En. lia.
Qed.

(** The steps of the thread that serves the client, [n] times over. *)
Fixpoint serve (n : nat) (s : estate E) : list (eout E) :=
  match n with
  | O => []
  | S n => let s1 := fst (estep E s (EWrite E)) in let s2 := fst (estep E s1 (ETake E)) in
           snd (estep E s (EWrite E)) ++ serve n s2
  end.
(** C78 — While a client is connected, every event that waits is written to it. *)
Theorem C78_delivered : forall evs s out c id, ereach E evs s out -> ev_client E s = Some c -> ev_here E s = true -> waiting E s id ->
  exists n e, In (Received E c id e) (serve n s).
Proof.
  intros evs s out c id R Hc Hh W. clear evs out R. destruct s as [n q cl here sd]. cbn in Hc, Hh. subst cl here.
  assert (Q : forall q sd, (exists e, In (id, e) q) \/ (exists e, sd = Some (id, e)) -> exists k e, In (Received E c id e) (serve k (mkEstate E n q (Some c) true sd))).
  { clear. induction q as [|[i e0] q IH]; intros sd H.
    - destruct H as [[e []]|[e ->]]. exists 1%nat, e. cbn. left. reflexivity.
    - destruct H as [[e [H|H]]|[e ->]].
      + injection H as -> ->. exists 2%nat, e. destruct sd as [x|]; cbn; auto.
      + destruct (IH (Some (i, e0)) (or_introl (ex_intro _ e H))) as (k & e1 & K). exists (S k), e1.
        destruct sd as [x|]; cbn [serve estep ev_client ev_sending ev_here ev_q ev_id fst snd]; apply in_app_iff; right; exact K.
      + exists 1%nat, e. cbn. left. reflexivity. }
  apply Q. destruct W as [W|W]; cbn in W; auto.
Qed.
End Events.

(** The hypotheses are met, with events lost to the limit of the queue and received. *)
Fixpoint run (s : estate Z) (l : list (eevent Z)) : list (eevent Z) * estate Z * list (eout Z) :=
  match l with
  | [] => ([], s, [])
  | ev :: l => let '(evs, s1, out) := run s l in (ev :: evs, fst (estep Z s1 ev), out ++ snd (estep Z s1 ev))
  end.
Lemma run_reach l : ereach Z l (snd (fst (run (event_start Z) l))) (snd (run (event_start Z) l)).
Proof.
  induction l as [|ev l IH]; [constructor|]. cbn [run]. destruct (run (event_start Z) l) as [[evs s] out]. cbn in *. constructor. exact IH.
Qed.
(** Latest first: 130 events with nobody connected, a client connects and reads three. *)
Definition ex_evs : list (eevent Z) :=
  [EWrite Z; ETake Z; EWrite Z; ETake Z; EWrite Z; ETake Z; EConnect Z 8; EConnect Z 7] ++
  map (fun n => ENotify Z (Z.of_nat n)) (rev (seq 0 130)).
Example C78_example : exists s out, ereach Z ex_evs s out /\ ids Z out = [11; 12; 13] /\ In (Received Z 7 12 11) out /\ In (Refused Z 8) out /\
  overtaken Z ex_evs 10 /\ waiting Z s 14 /\ ev_client Z s = Some 7 /\ ev_here Z s = true.
Proof.
  exists (snd (fst (run (event_start Z) ex_evs))), (snd (run (event_start Z) ex_evs)).
  split; [apply run_reach|]. split; [vm_compute; reflexivity|]. split; [vm_compute; auto 10|]. split; [vm_compute; auto 10|].
  split; [vm_compute; discriminate|]. split; [|split; vm_compute; reflexivity].
  left. exists 13. vm_compute. left. reflexivity.
Qed.

(** Not so: an event is lost only when the queue is full.  A client that left is noticed
    only when an event is written to it: that event is lost, although only one happened. *)
Theorem C78_lost_refuted : exists evs s out, ereach Z evs s out /\ happened Z evs = [5] /\ ids Z out = [] /\
  ~ waiting Z s 1 /\ ev_client Z s = Some 2 /\ ev_here Z s = true.
Proof.
  set (l := [EConnect Z 2; EWrite Z; ETake Z; ENotify Z 5; ELeave Z 1; EConnect Z 1]).
  exists l, (snd (fst (run (event_start Z) l))), (snd (run (event_start Z) l)).
  split; [apply run_reach|]. split; [reflexivity|]. split; [vm_compute; reflexivity|]. split; [|split; vm_compute; reflexivity].
  intros [[e H]|[e H]]; vm_compute in H; [exact H|discriminate H].
Qed.
(** Not so: when the only client has left, another one can connect.  It is turned away
    until an event happens. *)
Theorem C78_reconnect_refuted : exists evs s out, ereach Z (ELeave Z 1 :: evs) s out /\ ev_here Z s = false /\
  snd (estep Z s (EConnect Z 2)) = [Refused Z 2].
Proof.
  set (l := [ELeave Z 1; EConnect Z 1]).
  exists [EConnect Z 1], (snd (fst (run (event_start Z) l))), (snd (run (event_start Z) l)).
  split; [apply (run_reach l)|]. split; vm_compute; reflexivity.
Qed.

Print Assumptions C78_true.
Print Assumptions C78_in_order.
Print Assumptions C78_accounted.
Print Assumptions C78_delivered.
Print Assumptions C78_lost_refuted.
Print Assumptions C78_reconnect_refuted.
