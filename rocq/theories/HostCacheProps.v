(** * Property theorems about the host cache (C12, C16) *)

From Coq Require Import List Bool ZArith Lia.
From Verif Require Import PyBase PyBaseProofs HostCacheSpec HostCacheModel HostCacheProofs.
Import ListNotations.
Open Scope Z_scope.

(** C12.  Whatever is done to a VLAN's host cache, nothing raises; the hosts
    listed on a port are exactly the cached hosts whose entry names that port,
    each once; and the per-port and per-VLAN counts are those numbers.  No
    assumption on the clock. *)
Theorem C12_index_agrees : forall perm ops,
  exists c, hc_run perm ops hc_init = Some c /\
    (forall p e, In e (cached_hosts_on_port c p) <->
                 cached_host c (e_mac e) = Some e /\ e_port e = p) /\
    (forall p, NoDup (map e_mac (cached_hosts_on_port c p))) /\
    (forall p, cached_hosts_count_on_port c p = Z.of_nat (length (cached_hosts_on_port c p))) /\
    (exists macs, NoDup macs /\ (forall m, In m macs <-> cached_host c m <> None) /\
                  hosts_count c = Z.of_nat (length macs)).
Proof.
  intros perm ops. destruct (run_ok perm ops hc_init (hinv_reset _ _)) as (c & E & [Hn [A B C]]).
  exists c. split; [exact E|]. split; [exact B|]. split; [exact C|].
  split; [exact (count_on_port c)|].
  exists (map fst (hc_hosts c)). split; [exact Hn|]. split.
  - intros m. unfold cached_host.
    pose proof (dict_get_none Z.eqb zs m (hc_hosts c)) as Hd.
    destruct (dict_get Z.eqb m (hc_hosts c)) as [e|] eqn:Eg.
    + split; [discriminate|]. intros _. apply (dict_get_in _ zs) in Eg.
      apply in_map_iff. exists (m, e). auto.
    + split; [|congruence]. intros Hin _. exact (proj1 Hd eq_refl Hin).
  - unfold hosts_count. rewrite map_length. reflexivity.
Qed.
Print Assumptions C12_index_agrees.

(** C12.  With a clock that does not go backwards, the cache holds exactly the
    operator's host table: a host is cached if and only if the table has it,
    with the same port and time. *)
Theorem C12_cache_is_host_table : forall perm ops,
  clock_ok ops ->
  exists c, hc_run perm ops hc_init = Some c /\
    forall m, match cached_host c m with
              | Some e => table_after perm ops m = Some (e_port e, e_time e) /\ e_mac e = m
              | None => table_after perm ops m = None
              end.
Proof.
  intros perm ops H. destruct (run_init_refines perm ops H) as (c & E & _ & _ & R).
  exists c. split; [exact E|]. intros m. rewrite R.
  destruct (table_after perm ops m) as [[p t]|]; auto.
Qed.
Print Assumptions C12_cache_is_host_table.

(** A non-trivial history meeting the hypothesis: a host moves, its old port
    goes away, another host expires. *)
Definition ex_ops : list hop :=
  [Learn 11 1 100; Learn 22 2 101; Learn 11 2 110; PortGone 1; Expiry 412 300; Learn 33 1 413].

Example ex_ops_clock : clock_ok ex_ops.
Proof. exists 0. cbn. lia. Qed.

Example ex_ops_result :
  (let h := table_after (fun _ => false) ex_ops in (h 11, h 22, h 33)) =
  (None, None, Some (1, 413)) /\
  (let h := table_after (fun _ => false) (firstn 5 [Learn 11 1 100; Learn 22 2 101; Learn 11 2 110; PortGone 1; Expiry 405 300]) in (h 11, h 22)) =
  (Some (2, 110), None).
Proof. split; vm_compute; reflexivity. Qed.

(** C16.  After any history, an expiry pass returns exactly the hosts that are
    not on a permanent-learning port and were last seen more than [timeout]
    ago; afterwards none of those is cached and every other host is unchanged. *)
Theorem C16_expiry_exact : forall perm ops now timeout,
  clock_ok (ops ++ [Expiry now timeout]) ->
  exists c c' expired,
    hc_run perm ops hc_init = Some c /\
    expire_cache_hosts perm now timeout c = Some (c', expired) /\
    (forall e, In e expired <->
       table_after perm ops (e_mac e) = Some (e_port e, e_time e) /\
       perm (e_port e) = false /\ now - e_time e > timeout) /\
    (forall m, cached_host c' m =
       if existsb (fun e => e_mac e =? m) expired then None else cached_host c m).
Proof.
  intros perm ops now timeout H.
  assert (Hops : clock_ok ops).
  { destruct H as [t0 H]. exists t0. revert t0 H. induction ops as [|o r IH]; cbn; auto.
    destruct o; cbn; intros t0 H; intuition. }
  destruct (run_init_refines perm ops Hops) as (c & E & Hi & Ho & R).
  destruct (expire_hosts_ok perm now timeout c Hi) as (c' & ex & Ee & Hi' & _ & G & _).
  destruct (G Ho) as [G1 G2].
  exists c, c', ex. split; [exact E|]. split; [exact Ee|]. split.
  - intros e. rewrite G2, R. destruct (table_after perm ops (e_mac e)) as [[p t]|].
    + split.
      * intros (H1 & H2 & H3). injection H1 as H1.
        pose proof (f_equal e_port H1) as Hp. pose proof (f_equal e_time H1) as Ht. cbn in Hp, Ht.
        subst p t. split; [reflexivity|]. split; auto. lia.
      * intros (H1 & H2 & H3). injection H1 as -> ->. split; [destruct e; reflexivity|].
        split; auto. lia.
    + split; intros (H1 & _); discriminate.
  - intros m. rewrite G1. destruct (existsb _ ex) eqn:Ex.
    + apply existsb_exists in Ex as (e & He & Em). apply Z.eqb_eq in Em. subst m.
      apply G2 in He as (-> & H1 & H2). apply Z.ltb_lt in H1. rewrite H1, H2. reflexivity.
    + destruct (cached_host c m) as [e|] eqn:Eg; [|reflexivity].
      destruct (_ && _) eqn:Es; [|reflexivity]. exfalso.
      apply not_true_iff_false in Ex. apply Ex. apply existsb_exists. exists e.
      destruct Hi as [_ [A _ _]]. pose proof (A _ _ Eg) as Em.
      split; [|rewrite Em; apply Z.eqb_refl].
      apply G2. rewrite Em. apply andb_true_iff in Es as [S1 S2].
      apply Z.ltb_lt in S1. apply negb_true_iff in S2. auto.
Qed.
Print Assumptions C16_expiry_exact.

Example C16_case :
  clock_ok ([Learn 11 1 100; Learn 22 2 101; Learn 33 3 300] ++ [Expiry 500 300]) /\
  (match hc_run (fun p => p =? 2) [Learn 11 1 100; Learn 22 2 101; Learn 33 3 300] hc_init with
   | Some c => option_map (fun r => map e_mac (snd r)) (expire_cache_hosts (fun p => p =? 2) 500 300 c)
   | None => None
   end) = Some [11].
Proof. split; [exists 0; cbn; lia|vm_compute; reflexivity]. Qed.

(** The clock hypothesis is needed.  Finding: the pass is skipped while
    [dyn_oldest_host_time] is recent, and learning a host never lowers it; if
    the clock steps back and a host is learned with the earlier time, that host
    is not expired when it is due. *)
Theorem C16_clock_step_refuted : exists ops now timeout c c' e,
  0 <= timeout /\
  hc_run (fun _ => false) ops hc_init = Some c /\
  expire_cache_hosts (fun _ => false) now timeout c = Some (c', []) /\
  cached_host c' (e_mac e) = Some e /\ now - e_time e > timeout.
Proof.
  exists [Expiry 1000 300; Learn 11 1 500], 1200, 300.
  eexists; eexists; exists {| e_mac := 11; e_port := 1; e_time := 500 |}.
  split; [lia|]. split; [vm_compute; reflexivity|]. split; [vm_compute; reflexivity|].
  split; [vm_compute; reflexivity|]. cbn. lia.
Qed.
Print Assumptions C16_clock_step_refuted.
