(** * VLAN isolation on a standalone datapath, for every history *)
From Coq Require Import ZArith List Bool Lia.
From Verif Require Import OpenFlow TableModel FloodModel FloodSpec FloodRulesModel LearnModel L2Model L2Spec L2Proofs SwitchExec.
Import ListNotations.
Open Scope Z_scope.

(** ** C09: a frame only leaves on members of its own VLAN

    After any history of connections, disconnections, port status changes, packet
    arrivals, LACP messages, expiries and flow timeouts, whatever frame enters,
    every frame that leaves is that frame, on a member of its VLAN, tagged as that
    member is configured, or a copy to a mirror or the controller.  (The histories
    are those in which no host sends LACP or LLDP frames tagged with a VLAN its
    port does not carry: see the refutation below.) *)
Theorem C09_vlan_isolation_partial : forall cfg (F : packet -> Prop) evs w live pk es e,
  valid_cfg cfg -> (forall pk, F pk -> ~ foreign_control cfg pk) ->
  reach cfg F evs w -> frame_ok pk ->
  walk (w_sw w) live (tb_id (d_tvlan cfg)) pk es ->
  In e (wire (pk_in pk) es) -> may_leave cfg pk e.
Proof. intros cfg F evs w live pk es e V HF R Hk W He. eapply isolation_lemma; eauto. Qed.
Print Assumptions C09_vlan_isolation_partial.

(** A frame that belongs to no VLAN (tagged with one its port does not carry, or
    untagged without a native VLAN) goes nowhere but to mirrors of its own port
    and to the controller. *)
Theorem C09_stray_frames_stay_partial : forall cfg (F : packet -> Prop) evs w live pk es e,
  valid_cfg cfg -> (forall pk, F pk -> ~ foreign_control cfg pk) ->
  reach cfg F evs w -> frame_ok pk -> (forall v, ~ belongs cfg pk v) ->
  walk (w_sw w) live (tb_id (d_tvlan cfg)) pk es ->
  In e (wire (pk_in pk) es) ->
  fst e = OFPP_CONTROLLER \/
  exists p, In p (d_ports cfg) /\ pc_num p = pk_in pk /\ In (fst e) (pc_mirror p).
Proof.
  intros cfg F evs w live pk es e V HF R Hk NB W He.
  destruct (C09_vlan_isolation_partial cfg F evs w live pk es e V HF R Hk W He) as [[v [B _]]|[[[p [Hp [Hm [E|[v [B _]]]]]] _]|H]]; auto.
  - exfalso. eapply NB; eauto.
  - right. exists p; auto.
  - exfalso. eapply NB; eauto.
Qed.
Print Assumptions C09_stray_frames_stay_partial.

(** ** Concrete configurations *)
Definition ex_port (n : Z) (native : option Z) (tagged : list Z) (lag : Z) (lldp : bool) : pconf :=
  mkPconf n true native tagged false false true lag false false false false [] false false 255 true false false lldp.
Definition ex_cfg (ps : list pconf) : dconf :=
  mkDconf ps [mkVconf 100 true 255 0x0e0000000001; mkVconf 200 true 255 0x0e0000000001]
    (mkTable 0 7 0) (mkTable 1 7 0) (mkTable 2 7 0) (mkTable 3 7 0) (mkTable 4 7 0)
    Multi 0 0xf000 0xf001 300 0 10 false 10 30 true true (fun _ => 3).
Definition ex_frame (n : Z) (tags : list (Z * Z)) (src dst ty : Z) : packet :=
  mkPacket n tags (fun f => match f with EthSrc => Some src | EthDst => Some dst | EthType => Some ty | _ => None end).

Definition two_vlans : dconf := ex_cfg
  [ex_port 1 (Some 100) [] 0 true; ex_port 2 (Some 100) [200] 0 false; ex_port 3 (Some 200) [] 0 false;
   ex_port 4 None [100; 200] 0 false].
Definition learn_script : list script :=
  [SFrame (ex_frame 1 [] 0x0a 0x0b 0x800); SEv (CPacketIn 11 1 100 0x0a);
   SEv (CPortStatus 12 2 PModify true false); SEv (CPortStatus 13 2 PModify false false);
   SFrame (ex_frame 2 [] 0x0b 0x0a 0x800); SEv (CPacketIn 14 2 100 0x0b); SEv (CExpire 20)].

Lemma ex_frame_ok : forall n tags a b c, 0 < n < OFPP_MAX ->
  forallb (fun t => (0 <=? fst t) && (fst t <? 4096)) tags = true -> frame_ok (ex_frame n tags a b c).
Proof.
  intros n tags a b c Hn H. split; auto. simpl. intros vid pcp r ->. simpl in H.
  apply andb_true_iff in H as [H _]. apply andb_true_iff in H as [A B]. apply Z.leb_le in A. apply Z.ltb_lt in B. auto.
Qed.
Lemma no_control : forall n tags a b c, c <> 0x8809 -> c <> 0x88cc -> ~ foreign_control two_vlans (ex_frame n tags a b c).
Proof.
  intros n tags a b c H1 H2 [p [vid [pcp [r [_ [_ [_ [_ [[_ E]|[_ E]]]]]]]]]]; simpl in E; injection E as E; auto.
Qed.

(** The hypotheses hold of a run in which two hosts are learned and a link flaps:
    then traffic in VLAN 100 is delivered, untagged on port 2 and tagged on 4. *)
Example ex_isolation :
  valid_cfg two_vlans /\
  exists evs w, reach two_vlans (fun pk => ~ foreign_control two_vlans pk) evs w /\ length evs = 6%nat /\
    (exists es, walk (w_sw w) (fun _ => true) 0 (ex_frame 1 [] 0x0a 0x0b 0x800) es /\
       map (fun e => (fst e, pk_tags (snd e))) (wire 1 es) = [(2, [])]) /\
    (exists es, walk (w_sw w) (fun _ => true) 0 (ex_frame 1 [] 0x0a 0xffffffffffff 0x806) es /\
       map (fun e => (fst e, pk_tags (snd e))) (wire 1 es) = [(4, [(100, 0)]); (2, [])]).
Proof.
  split; [apply valid_cfgb_sound; vm_compute; reflexivity|].
  set (l := SEv (CConnect 10 [1; 2; 3; 4]) :: learn_script).
  destruct (script_run two_vlans world0 l) as [w|] eqn:E; [|vm_compute in E; discriminate].
  exists (script_evs l), w. split; [|split; [reflexivity|split]].
  - apply script_start; auto. intros p Hp. simpl in Hp.
    destruct Hp as [<-|[<-|[]]]; (split; [apply ex_frame_ok; [unfold OFPP_MAX; lia|reflexivity]|apply no_control; discriminate]).
  - vm_compute in E. injection E as <-.
    eexists. split; [apply (walk_run_sound 9); vm_compute; reflexivity|reflexivity].
  - vm_compute in E. injection E as <-.
    eexists. split; [apply (walk_run_sound 9); vm_compute; reflexivity|reflexivity].
Qed.

(** Without the restriction on LACP and LLDP frames the claim is false.  A host on
    port 1 (native VLAN 100, receive_lldp) sends an LLDP frame tagged 200: the
    punt rule does not look at the tag, and the packet-in handler does not check
    that port 1 carries VLAN 200 (valve.py 1289-1304 checks only in a stack), so
    the host is learned on VLAN 200 and receives VLAN 200 traffic for its
    address. *)
Definition hop_script : list script :=
  [SEv (CConnect 10 [1; 2; 3; 4]); SFrame (ex_frame 1 [(200, 0)] 0x0a 0x0180c200000e 0x88cc); SEv (CPacketIn 11 1 200 0x0a)].
Theorem C09_isolation_with_foreign_control_refuted : exists cfg evs w pk es e,
  valid_cfg cfg /\ reach cfg (fun _ => True) evs w /\ frame_ok pk /\
  walk (w_sw w) (fun _ => true) (tb_id (d_tvlan cfg)) pk es /\ In e (wire (pk_in pk) es) /\
  belongs cfg pk 200 /\ fst e = 1 /\ ~ member cfg 200 1 /\ ~ may_leave cfg pk e.
Proof.
  destruct (script_run two_vlans world0 hop_script) as [w|] eqn:E; [|vm_compute in E; discriminate].
  exists two_vlans, (script_evs hop_script), w, (ex_frame 3 [] 0x0c 0x0a 0x800).
  eexists. eexists.
  split; [apply valid_cfgb_sound; vm_compute; reflexivity|].
  split. { apply script_start; auto. intros p Hp. simpl in Hp. destruct Hp as [<-|[]].
    split; [apply ex_frame_ok; [unfold OFPP_MAX; lia|reflexivity]|exact I]. }
  split; [apply ex_frame_ok; [unfold OFPP_MAX; lia|reflexivity]|].
  vm_compute in E. injection E as <-.
  split; [apply (walk_run_sound 9); vm_compute; reflexivity|].
  split; [vm_compute; right; left; reflexivity|].
  assert (NM : ~ member two_vlans 200 1).
  { intros [[p [Hp [E M]]]|[p [Hp [E M]]]];
    (destruct Hp as [<-|[<-|[<-|[<-|[]]]]]; simpl in E; try discriminate E; simpl in M; try discriminate M; destruct M). }
  split; [exists (ex_port 3 (Some 200) [] 0 false); simpl; auto|].
  split; [reflexivity|]. split; [exact NM|].
  intros [[v [B D]]|[[[p [Hp [Hm _]]] _]|C]].
  - assert (v = 200). { destruct B as [p [Hp [E M]]].
      destruct Hp as [<-|[<-|[<-|[<-|[]]]]]; simpl in E; try discriminate E; simpl in M; congruence. }
    subst v. apply NM. destruct D as [_ [[D _]|[D _]]]; [left|right]; exact D.
  - destruct Hp as [<-|[<-|[<-|[<-|[]]]]]; destruct Hm.
  - discriminate C.
Qed.
Print Assumptions C09_isolation_with_foreign_control_refuted.
