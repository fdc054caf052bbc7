(** * The settings of a switch: properties *)
From Coq Require Import List Bool ZArith String Lia.
From Verif Require Import SettingsModel SettingsSpec SettingsProofs.
Import ListNotations.
Open Scope string_scope.
Open Scope list_scope.
Open Scope Z_scope.

(** A configuration of a switch is accepted exactly if it is acceptable. *)
Theorem C98_accepted : forall valid_mac id conf, a_dict conf ->
  ((exists r, load valid_mac id conf = Accepted r) <-> acceptable valid_mac id conf).
Proof.
  intros vm id conf D. destruct (load_cases vm id conf D) as [[A [r [E _]]]|[[E A]|[E [A _]]]].
  - split; eauto.
  - split; [intros [r X]; congruence|contradiction].
  - split; [intros [r X]; congruence|contradiction].
Qed.
Print Assumptions C98_accepted.

(** What is then set is what was given, or the default. *)
Theorem C98_loaded : forall valid_mac id conf r, a_dict conf -> load valid_mac id conf = Accepted r -> loaded id conf r.
Proof.
  intros vm id conf r D X. destruct (load_cases vm id conf D) as [[_ [r' [E L]]]|[[E _]|[E _]]]; congruence.
Qed.
Print Assumptions C98_loaded.

(** So, in a configuration that was accepted, timeouts fit the switch's 16 bits, neighbours
    are asked for at least twice before their addresses time out, and no time that is
    divided by or waited for is zero. *)
Theorem C98_timers : forall valid_mac id conf r, a_dict conf -> load valid_mac id conf = Accepted r ->
  exists t a n g j b, number (r "timeout") t /\ number (r "arp_neighbor_timeout") a /\
    number (r "nd_neighbor_timeout") n /\ number (r "cache_update_guard_time") g /\
    number (r "learn_jitter") j /\ number (r "learn_ban_timeout") b /\
    15 <= t < 2 ^ 16 /\ 2 * a < t /\ 2 * n < t /\ g <> 0 /\ j <> 0 /\ b <> 0.
Proof.
  intros vm id conf r D X. pose proof (C98_loaded vm id conf r D X) as [L [_ [[t [g [j [b [Ht [Hg [Hj [Hb [Ng [Nj Nb]]]]]]]]]] _]]].
  assert (A : acceptable vm id conf) by (apply C98_accepted; eauto).
  destruct (ac_timers _ _ _ A) as [t' [a [n [Ht' [Ha [Hn R]]]]]].
  assert (S : forall k d m, In (k, (TInt, PInt d)) DP_SETTINGS -> ~ derived k -> is_set conf k d m -> number (r k) m).
  { intros k d m I N [v [S V]]. specialize (L k TInt (PInt d) I N).
    apply (In_lookup _ _ _ _ dp_settings_nodup) in I.
    apply (val_iff conf k TInt (PInt d) _ (proj1 D) I) in L. apply (val_iff conf k TInt (PInt d) _ (proj1 D) I) in S.
    rewrite <- L, S. exact V. }
  assert (ND : ~ derived "timeout" /\ ~ derived "arp_neighbor_timeout" /\ ~ derived "nd_neighbor_timeout")
    by (unfold derived; cbn; intuition discriminate).
  destruct ND as [N1 [N2 N3]].
  apply (S "timeout" 300 t) in Ht; [|cbn; tauto|exact N1].
  apply (S "timeout" 300 t') in Ht'; [|cbn; tauto|exact N1].
  apply (S "arp_neighbor_timeout" 30 a) in Ha; [|cbn; tauto|exact N2].
  apply (S "nd_neighbor_timeout" 30 n) in Hn; [|cbn; tauto|exact N3].
  assert (E : t' = t) by (apply num_iff in Ht, Ht'; congruence). subst t'.
  assert (H : 7 <= t / 2) by (apply Z.div_le_lower_bound; lia).
  eexists t, a, n, _, _, _. change (2 ^ 16) with 65536.
  repeat (split; [eassumption || lia|]).
  split; [destruct (Z.eqb_spec g 0); lia|]. split; destruct (Z.eqb_spec j 0); destruct (Z.eqb_spec b 0); lia.
Qed.
Print Assumptions C98_timers.

(** All that is wrong with a configuration is found, and reported as such, except one
    thing ... *)
Theorem C98_no_exception : forall valid_mac id conf, a_dict conf -> load valid_mac id conf = Raised ->
  exists d, given conf "lldp_beacon" (PDict d) /\ In ("send_interval", PNone) d.
Proof.
  intros vm id conf D X. destruct (load_cases vm id conf D) as [[_ [r [E _]]]|[[E _]|[E [_ H]]]]; congruence.
Qed.
Print Assumptions C98_no_exception.

Definition ex_interfaces : string * pval := ("interfaces", PDict [("1", PDict [("native_vlan", PInt 100)])]).
Definition any_mac (s : string) : bool := true.

(** ... a null interval between beacons, for which an exception is raised that is not
    caught (and so ends the controller, when the configuration is read again). *)
Theorem C98_null_interval_refuted : exists conf, a_dict conf /\ load any_mac (PStr "sw1") conf = Raised.
Proof.
  exists [("dp_id", PInt 1); ex_interfaces; ("lldp_beacon", PDict [("send_interval", PNone)])]. split.
  - split; [apply nodupb_ok; vm_compute; reflexivity|].
    intros k d H. cbn [In] in H. unfold ex_interfaces in H.
    destruct H as [H|[H|[H|[]]]]; try discriminate; injection H as _ <-; apply nodupb_ok; reflexivity.
  - vm_compute. reflexivity.
Qed.
Print Assumptions C98_null_interval_refuted.

(** Times may be negative, and a yes be taken for the number 1. *)
Theorem C98_negative_refuted : exists conf r, a_dict conf /\ load any_mac (PStr "sw1") conf = Accepted r /\
  r "dp_id" = PBool true /\ r "arp_neighbor_timeout" = PInt (-1) /\ r "learn_jitter" = PInt (-10) /\
  r "learn_ban_timeout" = PInt (-10) /\ r "cache_update_guard_time" = PInt (-1).
Proof.
  exists [("dp_id", PBool true); ex_interfaces; ("arp_neighbor_timeout", PInt (-1)); ("learn_jitter", PInt (-10));
          ("cache_update_guard_time", PInt (-1))].
  eexists. split; [|split; [vm_compute; reflexivity|repeat split]].
  split; [apply nodupb_ok; vm_compute; reflexivity|].
  intros k d H. cbn [In] in H. unfold ex_interfaces in H.
  destruct H as [H|[H|[H|[H|[H|[]]]]]]; try discriminate; injection H as _ <-; apply nodupb_ok; reflexivity.
Qed.
Print Assumptions C98_negative_refuted.

(** An ordinary configuration *)
Definition ex_dp : list (string * pval) :=
  [("dp_id", PInt 0xcafe); ex_interfaces; ("timeout", PInt 100); ("arp_neighbor_timeout", PInt 49);
   ("lldp_beacon", PDict [("max_per_interval", PInt 7)]); ("group_table", PNone)].
Example ex_settings : a_dict ex_dp /\ exists r, load any_mac (PStr "sw1") ex_dp = Accepted r /\
  r "learn_jitter" = PInt 30 /\ r "cache_update_guard_time" = PInt 50 /\ r "nd_neighbor_timeout" = PInt 30.
Proof.
  split.
  - split; [apply nodupb_ok; vm_compute; reflexivity|].
    intros k d H. cbn [In ex_dp] in H. unfold ex_interfaces in H.
    destruct H as [H|[H|[H|[H|[H|[H|[]]]]]]]; try discriminate; injection H as _ <-; apply nodupb_ok; reflexivity.
  - eexists. split; [vm_compute; reflexivity|repeat split].
Qed.
(** and one whose ARP timeout is half the timeout, which is not accepted *)
Example ex_not_accepted :
  load any_mac (PStr "sw1") [("dp_id", PInt 1); ex_interfaces; ("timeout", PInt 100); ("arp_neighbor_timeout", PInt 50)] = Rejected.
Proof. vm_compute. reflexivity. Qed.
