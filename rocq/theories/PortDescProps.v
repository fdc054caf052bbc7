(** * C42: the controller's belief about ports follows what the switch said last *)

From Coq Require Import ZArith List Bool Lia Permutation.
From Verif Require Import PyBase OpenFlow L2Model L2Spec L2PortSpec SwitchExec L2Props PortDescModel PortDescSpec PortDescProofs.
Import ListNotations.
Open Scope Z_scope.

(** Whatever happened, and whether or not the controller noticed each disconnection: while the
    switch is connected, a port whose operational status is followed is taken to be up exactly when
    the switch last said it was. *)
Theorem C42_belief_with_replies : forall cfg evs st p,
  valid_cfg cfg -> preach cfg evs st -> pconnected evs = true ->
  In p (d_ports cfg) -> pc_opstatus p = true -> configured p = true -> pc_num p <= 0xF0000000 ->
  plain_words evs (pc_num p) ->
  ds_running st = true /\ (ds_phys st (pc_num p) = true <-> said evs (pc_num p) = WUp).
Proof.
  intros cfg evs st p V R C Hp Op Cf Hn Pl.
  assert (N1 : pc_num p <> OFPP_LOCAL) by (unfold OFPP_LOCAL; lia).
  assert (N2 : ignore_port (pc_num p) = false).
  { unfold ignore_port. rewrite andb_false_iff. right. rewrite Z.gtb_ltb. apply Z.ltb_ge. exact Hn. }
  destruct (belief_inv cfg (vc_nums _ V) evs st p R Hp Op Cf N1 N2 Pl) as (A & _ & B).
  split; [congruence|]. specialize (B C). unfold word_is in B. rewrite B. destruct (ds_phys st (pc_num p)); split; congruence.
Qed.
Print Assumptions C42_belief_with_replies.

(** A description alone (before the connection is made) already corrects the belief of each port
    that had been taken to be up and is not, in whatever order the changes are handled. *)
Theorem C42_reply_corrects : forall cfg evs st now descs order st' ms p,
  valid_cfg cfg -> preach cfg evs st -> plain_words evs (pc_num p) ->
  In p (d_ports cfg) -> pc_opstatus p = true -> configured p = true -> pc_num p <= 0xF0000000 ->
  Permutation order (fabricated cfg (ds_up st) descs) -> handle_all cfg st now order = Some (st', ms) ->
  (forall down, In (pc_num p, down) descs -> down = true) ->
  ds_phys st' (pc_num p) = false.
Proof.
  intros cfg evs st now descs order st' ms p V R Pl Hp Op Cf Hn HP H Hd.
  assert (N1 : pc_num p <> OFPP_LOCAL) by (unfold OFPP_LOCAL; lia).
  assert (N2 : ignore_port (pc_num p) = false).
  { unfold ignore_port. rewrite andb_false_iff. right. rewrite Z.gtb_ltb. apply Z.ltb_ge. exact Hn. }
  destruct (belief_inv cfg (vc_nums _ V) evs st p R Hp Op Cf N1 N2 Pl) as (_ & B & _).
  destruct (reply_port cfg st now descs order st' ms p Hp (find_self cfg (vc_nums _ V) p Hp) Op N1 B HP H) as [X _].
  destruct (ds_phys st' (pc_num p)); [|reflexivity]. specialize (X eq_refl).
  rewrite <- said_up_desc in X. apply existsb_exists in X. destruct X as [[n d] [Hin E]]. cbn in E. apply andb_prop in E.
  destruct E as [E1 E2]. apply Z.eqb_eq in E1. subst n. rewrite (Hd d Hin) in E2. discriminate.
Qed.
Print Assumptions C42_reply_corrects.

(** ** Concrete cases *)

(** Runs handling made-up messages in the order of [fabricated] *)
Definition pstep (cfg : dconf) (st : dstate) (e : pevent) : option dstate :=
  match e with
  | PEv (CConnect _ _) => None
  | PEv ev => option_map fst (cstep cfg st ev)
  | PHandshake now descs =>
      match handle_all cfg st now (fabricated cfg (ds_up st) descs) with
      | Some (st1, _) => Some (fst (datapath_connect cfg st1 now (filter (fun n => negb (ignore_port n)) (desc_up descs))))
      | None => None
      end
  end.
Fixpoint prun (cfg : dconf) (evs : list pevent) : option dstate :=
  match evs with
  | [] => Some dstate_init
  | e :: r => match prun cfg r with Some st => pstep cfg st e | None => None end
  end.
Lemma prun_reach : forall cfg evs st, prun cfg evs = Some st -> preach cfg evs st.
Proof.
  induction evs as [|e r IH]; intros st H; cbn in H.
  - injection H as <-. constructor.
  - destruct (prun cfg r) as [st0|]; [|discriminate]. specialize (IH st0 eq_refl). destruct e as [ev|now descs]; cbn in H.
    + destruct (cstep cfg st0 ev) as [[st1 ms]|] eqn:E.
      * assert (X : (forall now ups, ev <> CConnect now ups) /\ Some st1 = Some st).
        { destruct ev; try discriminate; (split; [discriminate|exact H]). }
        destruct X as [X1 X2]. injection X2 as <-. eapply pr_ev; eauto.
      * destruct ev; discriminate.
    + destruct (handle_all cfg st0 now _) as [[st1 ms1]|] eqn:E; [|discriminate]. injection H as <-.
      eapply pr_handshake; eauto using Permutation_refl.
Qed.

Definition all_up : list desc := [(1, false); (2, false); (3, false); (4, false)].
(** The switch connects with all ports up, and comes back with port 2 down without the controller
    having noticed that it went; then the link comes up: port 2 is taken to be up again. *)
Definition ex_evs : list pevent :=
  [PEv (CPortStatus 22 2 PModify false false);
   PHandshake 20 [(1, false); (2, true); (3, false); (4, false); (OFPP_LOCAL, true)];
   PHandshake 10 all_up].
Example ex_reconnect : valid_cfg two_vlans /\ exists st st' p,
  preach two_vlans ex_evs st /\ pconnected ex_evs = true /\ In p (d_ports two_vlans) /\
  pc_num p = 2 /\ pc_opstatus p = true /\ configured p = true /\ plain_words ex_evs 2 /\ said ex_evs 2 = WUp /\
  ds_phys st 2 = true /\
  preach two_vlans (tl ex_evs) st' /\ said (tl ex_evs) 2 = WDown /\ ds_phys st' 2 = false.
Proof.
  split; [apply valid_cfgb_sound; vm_compute; reflexivity|].
  destruct (prun two_vlans ex_evs) as [st|] eqn:E; [|vm_compute in E; discriminate].
  destruct (prun two_vlans (tl ex_evs)) as [st'|] eqn:E'; [|vm_compute in E'; discriminate].
  exists st, st', (nth 1 (d_ports two_vlans) (ex_port 0 None [] 0 false)).
  split; [apply prun_reach, E|]. split; [reflexivity|]. split; [right; left; reflexivity|].
  split; [reflexivity|]. split; [reflexivity|]. split; [reflexivity|].
  split. { repeat constructor; cbn; discriminate. }
  split; [reflexivity|].
  split. { assert (X : option_map (fun s => ds_phys s 2) (prun two_vlans ex_evs) = Some true) by (vm_compute; reflexivity).
           rewrite E in X. injection X as X. exact X. }
  split; [apply prun_reach, E'|]. split; [reflexivity|].
  assert (X : option_map (fun s => ds_phys s 2) (prun two_vlans (tl ex_evs)) = Some false) by (vm_compute; reflexivity).
  rewrite E' in X. injection X as X. exact X.
Qed.

(** The separately kept set of ports up (dyn_up_port_nos), which the handler compares with, is not
    corrected for ports that are neither configured nor described: port 9 stays in it after a
    reply that does not have it (valve.py 613-636). *)
Theorem C42_up_set_reply_refuted : exists evs st,
  preach two_vlans evs st /\ pconnected evs = true /\ said evs 9 = WDown /\ In 9 (ds_up st).
Proof.
  set (evs := [PHandshake 20 all_up; PHandshake 10 ((9, false) :: all_up)]).
  destruct (prun two_vlans evs) as [st|] eqn:E; [|vm_compute in E; discriminate].
  exists evs, st. split; [apply prun_reach, E|]. split; [reflexivity|]. split; [reflexivity|].
  assert (X : option_map (fun s => memZ 9 (ds_up s)) (prun two_vlans evs) = Some true) by (vm_compute; reflexivity).
  rewrite E in X. injection X as X. apply memZ_in, X.
Qed.
Print Assumptions C42_up_set_reply_refuted.
