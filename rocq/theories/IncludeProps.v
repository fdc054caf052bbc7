(** * Properties of configuration files: C39, C40, C56 *)
From Coq Require Import ZArith List Bool Lia.
From Verif Require Import PyBase PyBaseProofs PacketModel IncludeModel IncludeSpec IncludeProofs.
Import ListNotations.
Open Scope Z_scope.

(** ** Example files

    A content is its own YAML: [parse] looks it up in a list. *)
Definition dict_file (inc opt : list Z) (acls : list (Z * Z)) : yaml :=
  YDict (mkParsed true false (fun s => Entries (if s =? 0 then acls else [])) (Names inc) (Names opt)).
Definition ex_env (l : list (Z * yaml)) : env :=
  mkEnv (fun x => match dict_get Z.eqb x l with Some y => y | None => YNothing end) (fun _ n => n).
Definition ex_fs (l : list (Z * Z)) : fsys :=
  fun p => match dict_get Z.eqb p l with Some x => Text x | None => Missing end.

(** Path 1 includes 2 and optionally 3 and 4; 4 is not there. *)
Definition ex1_env : env :=
  ex_env [(101, dict_file [2] [3; 4] [(7, 70); (8, 80)]); (102, dict_file [] [] [(8, 81)]); (103, dict_file [] [] [(9, 90)])].
Definition ex1_fs : fsys := ex_fs [(1, 101); (2, 102); (3, 103)].
Definition ex1_hashes : hashes := [(1, Some 101); (2, Some 102); (3, Some 103); (4, None)].
Definition ex1_tops : tops := [(0, [(7, 70); (8, 81); (9, 90)]); (1, []); (2, []); (3, []); (4, [])].
Example ex1_load : exists c, load 5 ex1_env ex1_fs 1 = Result true ex1_hashes c ex1_tops.
Proof. eexists. vm_compute. reflexivity. Qed.

(** ** C39 *)

(** A load that succeeds loads exactly the file and its includes. *)
Lemma load_log : forall fuel e fs p h c t, load fuel e fs p = Result true h c t ->
  exists log, describes e fs p log h t
    /\ (forall fs', agrees log fs' -> exists c', load fuel e fs' p = Result true h c' t)
    /\ (forall q x, In (Loaded q x) log -> dict_get Z.eqb q c = Some x)
    /\ (forall q y, In (q, y) c -> fs q = Text y)
    /\ NoDup (map fst h).
Proof.
  intros fuel e fs p h c t E. unfold load in E.
  assert (T : tidy empty_tops).
  { split; [vm_compute; repeat (constructor; [simpl; intuition; discriminate|]); constructor|].
    vm_compute. repeat (constructor; [constructor|]). constructor. }
  destruct (include_ok e fs fuel _ _ _ _ _ _ _ _ E (NoDup_nil _) T) as (log & L & F & [P RD] & W & R & M & S).
  { intros s I. exact I. }
  exists log. split; [|split; [|split; [|split]]].
  - constructor.
    + exact RD.
    + exact P.
    + exact (lg_text _ _ _ L).
    + exact (lg_sound _ _ _ L).
    + exact (lg_required _ _ _ L).
    + exact (lg_optional _ _ _ L).
    + intros q I. apply W, in_app_iff. left. exact I.
    + exact S.
    + intros s k I. rewrite (ef_value _ _ _ _ _ _ _ F s k I). f_equal.
      destruct I as [<-|[<-|[<-|[<-|[<-|[]]]]]]; reflexivity.
    + intros q. rewrite (ef_hash _ _ _ _ _ _ _ F). reflexivity.
  - intros fs' A. exact (R fs' A []).
  - intros q x I. destruct (key_get _ c q) as [y G]; [apply M, loaded_in; eauto|].
    destruct (include_contents e fs _ _ _ _ _ _ _ _ _ E) as [_ FC].
    assert (fs q = Text y) by (apply FC; [intros ? ? []|apply get_entry, G]).
    rewrite (lg_text _ _ _ L _ _ I) in H. congruence.
  - destruct (include_contents e fs _ _ _ _ _ _ _ _ _ E) as [_ FC]. intros q y I. apply FC; [intros ? ? []|exact I].
  - destruct (ef_hext _ _ _ _ _ _ _ F) as [kv ->]. apply update_nodup. constructor.
Qed.

Theorem C39_exact : forall fuel e fs p h c t, load fuel e fs p = Result true h c t ->
  exists log, describes e fs p log h t.
Proof. intros fuel e fs p h c t E. destruct (load_log _ _ _ _ _ _ _ E) as (log & D & _). eauto. Qed.
Print Assumptions C39_exact.

(** Including a file that fails adds nothing to the hashes and sections. *)
Theorem C39_all_or_nothing : forall fuel e fs h c p t h' c' t',
  dp_include fuel e fs h c p t = Result false h' c' t' -> h' = h /\ t' = t.
Proof. intros fuel e fs. exact (include_false e fs fuel). Qed.
Print Assumptions C39_all_or_nothing.
Example C39_all_or_nothing_case :
  dp_include 5 (ex_env [(101, dict_file [2; 3] [] [(7, 70)]); (102, dict_file [] [] [(8, 80)])])
    (ex_fs [(1, 101); (2, 102)]) [(9, Some 9)] [] 1 empty_tops
  = Result false [(9, Some 9)] [(2, 102)] empty_tops.
Proof. reflexivity. Qed.

(** ... but the contents kept for reverting stay (the second file's, above). *)
Theorem C39_contents_left_refuted : exists e fs p h c t,
  load 5 e fs p = Result false h c t /\ c <> [].
Proof.
  exists (ex_env [(101, dict_file [2; 3] [] [(7, 70)]); (102, dict_file [] [] [(8, 80)])]), (ex_fs [(1, 101); (2, 102)]), 1.
  eexists _, _, _. split; [reflexivity|discriminate].
Qed.
Print Assumptions C39_contents_left_refuted.

(** No file that is loaded includes itself, directly or not. *)
Theorem C39_cycles_rejected : forall fuel e fs p h c t, load fuel e fs p = Result true h c t ->
  forall q, (q = p \/ needs e fs p q) -> ~ needs e fs q q.
Proof.
  intros fuel e fs p h c t E q Q.
  assert (L : loads e fs [] p) by (exists fuel, [], empty_tops, h, c, t; exact E).
  destruct Q as [->|Q]; [exact (no_cycles e fs _ _ L)|].
  destruct (loads_reach e fs _ _ Q _ L) as [h' L']. exact (no_cycles e fs _ _ L').
Qed.
Print Assumptions C39_cycles_rejected.
Example C39_cycle_case : (* 1 includes 2 includes 3 includes 2 *)
  let e := ex_env [(101, dict_file [2] [] []); (102, dict_file [3] [] []); (103, dict_file [2] [] [])] in
  let fs := ex_fs [(1, 101); (2, 102); (3, 103)] in
  needs e fs 1 2 /\ needs e fs 2 2 /\ forall fuel, (5 <= fuel)%nat -> exists h c t, load fuel e fs 1 = Result false h c t.
Proof.
  cbv zeta. set (e := ex_env _). set (fs := ex_fs _).
  assert (R : forall p x d l n, fs p = Text x -> parse e x = YDict d -> pa_include d = Names l -> In n l -> requires e fs p n).
  { intros p x d l n A B C D. exists d, l, n. split; [exists x; auto|auto]. }
  assert (R12 : requires e fs 1 2) by (eapply R; [reflexivity..|left; reflexivity]).
  assert (R23 : requires e fs 2 3) by (eapply R; [reflexivity..|left; reflexivity]).
  assert (R32 : requires e fs 3 2) by (eapply R; [reflexivity..|left; reflexivity]).
  split; [apply needs_one, R12|split; [eapply needs_more; [exact R23|apply needs_one, R32]|]].
  intros fuel L. unfold load.
  assert (K : dp_include 5 e fs [] [] 1 empty_tops <> OutOfFuel) by (vm_compute; discriminate).
  rewrite (include_fuel e fs 5 _ _ _ _ K fuel L). do 3 eexists. vm_compute. reflexivity.
Qed.

(** A load always ends: with [n] files in existence, a depth of 2n + 1 calls is
    never exceeded, and the outcome does not depend on the depth allowed. *)
Theorem C39_terminates : forall e fs files, (forall p, isfile fs p = true -> In p files) ->
  forall p fuel, (2 * length files + 1 <= fuel)%nat ->
  load fuel e fs p <> OutOfFuel /\ load fuel e fs p = load (2 * length files + 1) e fs p.
Proof.
  intros e fs files A p fuel L.
  assert (K : load (2 * length files + 1) e fs p <> OutOfFuel).
  { unfold load. apply (include_terminates e fs files A). unfold measure. cbn [has dict_get].
    assert (unseen files [] <= length files)%nat; [|lia].
    unfold unseen. clear. induction files as [|x l IH]; simpl; [lia|simpl in *; lia]. }
  split; [|apply include_fuel; assumption].
  unfold load in *. rewrite (include_fuel e fs _ _ _ _ _ K fuel L). exact K.
Qed.
Print Assumptions C39_terminates.
Example C39_terminates_case : forall p, isfile ex1_fs p = true -> In p [1; 2; 3].
Proof.
  intros p. unfold isfile, ex1_fs, ex_fs. cbn.
  destruct (p =? 1) eqn:A; [apply Z.eqb_eq in A; auto|]. destruct (p =? 2) eqn:B; [apply Z.eqb_eq in B; auto|].
  destruct (p =? 3) eqn:C; [apply Z.eqb_eq in C; auto|]. discriminate.
Qed.

(** Two files that include a common third are taken for a loop, although nothing
    includes itself and every file is in order. *)
Theorem C39_diamond_refuted : exists e fs,
  (forall p, isfile fs p = true -> sound e fs p) /\ (forall p q, requires e fs p q -> isfile fs q = true)
  /\ (forall p q, requires e fs p q -> p < q)
  /\ exists h c t, load 9 e fs 1 = Result false h c t.
Proof.
  set (e := ex_env [(101, dict_file [2; 3] [] []); (102, dict_file [4] [] []); (103, dict_file [4] [] []); (104, dict_file [] [] [(7, 70)])]).
  set (fs := ex_fs [(1, 101); (2, 102); (3, 103); (4, 104)]).
  exists e, fs.
  assert (CASES : forall p x, fs p = Text x -> (p, x) = (1, 101) \/ (p, x) = (2, 102) \/ (p, x) = (3, 103) \/ (p, x) = (4, 104)).
  { intros p x. unfold fs, ex_fs. cbn.
    destruct (p =? 1) eqn:A; [apply Z.eqb_eq in A as ->; intros X; injection X as <-; auto|].
    destruct (p =? 2) eqn:B; [apply Z.eqb_eq in B as ->; intros X; injection X as <-; auto|].
    destruct (p =? 3) eqn:C; [apply Z.eqb_eq in C as ->; intros X; injection X as <-; auto|].
    destruct (p =? 4) eqn:D; [apply Z.eqb_eq in D as ->; intros X; injection X as <-; auto|]. discriminate. }
  assert (REQ : forall p q, requires e fs p q -> In (p, q) [(1, 2); (1, 3); (2, 4); (3, 4)]).
  { intros p q (d & l & n & (x & F & P) & I & J & ->). cbn [resolve e ex_env].
    destruct (CASES p x F) as [X|[X|[X|X]]]; injection X as -> ->; cbn in P; injection P as <-; cbn in I; injection I as <-;
      cbn in J; repeat destruct J as [<-|J]; try contradiction; simpl; auto. }
  split; [|split; [|split]].
  - intros p F. unfold isfile in F. destruct (fs p) as [| |x] eqn:X.
    + discriminate.
    + unfold fs, ex_fs in X. destruct (dict_get Z.eqb p _); discriminate.
    + assert (G : forall i o a, parse e x = dict_file i o a -> sound e fs p).
      { intros i o a P. eexists. split; [exists x; split; [exact X|exact P]|]. cbn.
        split; [reflexivity|]. split; [intros s _; discriminate|]. split; discriminate. }
      destruct (CASES p x X) as [Y|[Y|[Y|Y]]]; injection Y as -> ->; eapply G; reflexivity.
  - intros p q R. apply REQ in R. simpl in R. repeat destruct R as [R|R]; try contradiction; injection R as <- <-; reflexivity.
  - intros p q R. apply REQ in R. simpl in R. repeat destruct R as [R|R]; try contradiction; injection R as <- <-; reflexivity.
  - do 3 eexists. vm_compute. reflexivity.
Qed.
Print Assumptions C39_diamond_refuted.

(** A file that includes itself optionally is accepted. *)
Theorem C39_optional_cycle_refuted : exists e fs p h c t,
  may_include e fs p p /\ load 5 e fs p = Result true h c t /\ dict_get Z.eqb p h = Some None.
Proof.
  exists (ex_env [(101, dict_file [] [1] [(7, 70)])]), (ex_fs [(1, 101)]), 1. do 3 eexists.
  split; [|split; [vm_compute; reflexivity|reflexivity]].
  eexists _, [1], 1. split; [exists 101; split; reflexivity|]. split; [reflexivity|]. split; [left; reflexivity|reflexivity].
Qed.
Print Assumptions C39_optional_cycle_refuted.

(** An included file that is not a dictionary raises. *)
Theorem C39_not_a_dictionary_refuted : exists e fs p, load 5 e fs p = Raised.
Proof. exists (ex_env [(101, dict_file [] [2] []); (102, YOther)]), (ex_fs [(1, 101); (2, 102)]), 1. reflexivity. Qed.
Print Assumptions C39_not_a_dictionary_refuted.

(** ** C40 *)

(** No reload is asked for exactly when every recorded file is as recorded. *)
Theorem C40_noticed : forall fuel e fs p h c t fs', load fuel e fs p = Result true h c t ->
  (config_changed fs' (Some p) (Some p) (Some h) = PyVal false <->
   forall q x, dict_get Z.eqb q h = Some x -> fs' q = match x with Some y => Text y | None => Missing end).
Proof.
  intros fuel e fs p h c t fs' E. destruct (load_log _ _ _ _ _ _ _ E) as (_ & _ & _ & _ & _ & N).
  unfold config_changed. rewrite Z.eqb_refl. apply hashes_changed_false, N.
Qed.
Print Assumptions C40_noticed.

Lemma kept_none : forall log p old, ~ In p (loaded log) -> ~ In p (skipped log) -> kept log p old = old.
Proof.
  unfold kept. induction log as [|n log IH]; intros p old A B; [reflexivity|]. simpl. destruct n as [q x|q]; simpl in *.
  - destruct (q =? p) eqn:E; [apply Z.eqb_eq in E; elim A; left; exact E|]. apply IH; [|exact B]. intros I. apply A. right. exact I.
  - destruct (q =? p) eqn:E; [apply Z.eqb_eq in E; elim B; left; exact E|]. apply IH; [exact A|]. intros I. apply B. right. exact I.
Qed.

Lemma kept_loaded : forall fs log p old, (forall q x, In (Loaded q x) log -> fs q = Text x) ->
  ~ In p (skipped log) -> In p (loaded log) -> exists x, kept log p old = Some (Some x) /\ fs p = Text x.
Proof.
  intros fs. induction log as [|n log IH]; intros p old T S I; [destruct I|].
  assert (T' : forall q x, In (Loaded q x) log -> fs q = Text x) by (intros q x J; apply T; right; exact J).
  destruct n as [q x|q].
  - change (kept (Loaded q x :: log) p old) with (kept log p (if q =? p then Some (Some x) else old)).
    destruct (in_dec Z.eq_dec p (loaded log)) as [J|J]; [exact (IH _ _ T' S J)|].
    destruct I as [I|I]; [|contradiction]. subst q. exists x. rewrite Z.eqb_refl.
    split; [apply kept_none; assumption|apply T; left; reflexivity].
  - change (kept (Skipped q :: log) p old) with (kept log p (if q =? p then Some None else old)).
    apply IH; [exact T'|intros J; apply S; right; exact J|exact I].
Qed.

Lemma kept_skipped : forall log p old, ~ In p (loaded log) -> In p (skipped log) -> kept log p old = Some None.
Proof.
  induction log as [|n log IH]; intros p old L I; [destruct I|]. destruct n as [q x|q].
  - change (kept (Loaded q x :: log) p old) with (kept log p (if q =? p then Some (Some x) else old)).
    apply IH; [intros J; apply L; right; exact J|exact I].
  - change (kept (Skipped q :: log) p old) with (kept log p (if q =? p then Some None else old)).
    destruct (in_dec Z.eq_dec p (skipped log)) as [J|J]; [exact (IH _ _ L J)|].
    destruct I as [I|I]; [|contradiction]. subst q. rewrite Z.eqb_refl. apply kept_none; assumption.
Qed.

(** Unless a file was both loaded and skipped, no reload is asked for only if
    loading again would give the same configuration; and none is asked for when
    the files are the same and no skipped file exists. *)
Theorem C40_no_misses : forall fuel e fs p h c t, load fuel e fs p = Result true h c t ->
  exists log, describes e fs p log h t /\
  ((forall q, In q (loaded log) -> ~ In q (skipped log)) ->
   forall fs', config_changed fs' (Some p) (Some p) (Some h) = PyVal false ->
     exists c', load fuel e fs' p = Result true h c' t) /\
  ((forall q, In q (skipped log) -> fs q = Missing) -> config_changed fs (Some p) (Some p) (Some h) = PyVal false).
Proof.
  intros fuel e fs p h c t E. pose proof (fun fs' => C40_noticed _ _ _ _ _ _ _ fs' E) as CH.
  destruct (load_log _ _ _ _ _ _ _ E) as (log & D & R & _ & _ & N). exists log. split; [exact D|]. split.
  - intros DIS fs' U. apply R. pose proof (proj1 (CH fs') U) as A. split.
    + intros q x I. assert (J : In q (loaded log)) by (apply loaded_in; eauto).
      destruct (kept_loaded fs log q None (ds_text _ _ _ _ _ _ D) (DIS q J) J) as (y & K & F).
      rewrite (ds_text _ _ _ _ _ _ D _ _ I) in F. injection F as <-.
      apply (A q (Some x)). rewrite (ds_hash _ _ _ _ _ _ D). exact K.
    + intros q I. apply skipped_in in I. apply (A q None). rewrite (ds_hash _ _ _ _ _ _ D). apply kept_skipped; [|exact I].
      intros J. exact (DIS q J I).
  - intros SK. apply CH. intros q x K. rewrite (ds_hash _ _ _ _ _ _ D) in K.
    destruct (in_dec Z.eq_dec q (skipped log)) as [I|I].
    + rewrite kept_skipped in K; [injection K as <-; apply SK, I| |exact I].
      intros J. destruct (proj1 (loaded_in q log) J) as [y Y]. pose proof (ds_text _ _ _ _ _ _ D _ _ Y) as Y'.
      rewrite (SK q I) in Y'. discriminate.
    + destruct (in_dec Z.eq_dec q (loaded log)) as [J|J].
      * destruct (kept_loaded fs log q None (ds_text _ _ _ _ _ _ D) I J) as (y & K' & F).
        rewrite K in K'. injection K' as ->. exact F.
      * rewrite kept_none in K by assumption. discriminate.
Qed.
Print Assumptions C40_no_misses.

(** Without optional includes nothing is assumed. *)
Definition no_optional (e : env) (fs : fsys) : Prop := forall p q, ~ may_include e fs p q.
Theorem C40_no_misses_without_optional : forall fuel e fs p h c t, no_optional e fs ->
  load fuel e fs p = Result true h c t ->
  config_changed fs (Some p) (Some p) (Some h) = PyVal false /\
  forall fs', config_changed fs' (Some p) (Some p) (Some h) = PyVal false ->
    exists c', load fuel e fs' p = Result true h c' t.
Proof.
  intros fuel e fs p h c t NO E. destruct (C40_no_misses _ _ _ _ _ _ _ E) as (log & D & A & B).
  assert (NS : forall q, ~ In q (skipped log)).
  { intros q I. destruct (ds_why_skipped _ _ _ _ _ _ D q I) as (r & _ & M). exact (NO _ _ M). }
  split; [apply B; intros q I; elim (NS q I)|]. apply A. intros q _. apply NS.
Qed.
Print Assumptions C40_no_misses_without_optional.
Example C40_case : (* the first example; its second file edited, its third removed, its fourth created *)
  config_changed ex1_fs (Some 1) (Some 1) (Some ex1_hashes) = PyVal false
  /\ config_changed (ex_fs [(1, 101); (2, 103); (3, 103)]) (Some 1) (Some 1) (Some ex1_hashes) = PyVal true
  /\ config_changed (ex_fs [(1, 101); (2, 102)]) (Some 1) (Some 1) (Some ex1_hashes) = PyVal true
  /\ config_changed (ex_fs [(1, 101); (2, 102); (3, 103); (4, 103)]) (Some 1) (Some 1) (Some ex1_hashes) = PyVal true.
Proof. repeat split. Qed.

(** A request for another file than the one loaded, or for the first one, always
    loads it. *)
Theorem C40_other_file : forall fs w f, w_file w <> Some f ->
  config_changed fs (w_file w) (Some f) (w_hashes w) = PyVal true.
Proof.
  intros fs w f N. unfold config_changed. destruct (w_file w) as [a|]; [|reflexivity].
  destruct (a =? f) eqn:E; [|reflexivity]. apply Z.eqb_eq in E as ->. elim N. reflexivity.
Qed.
Print Assumptions C40_other_file.

(** An optional include that exists but cannot be loaded asks for a reload for
    ever, although nothing changes. *)
Theorem C40_false_alarm_refuted : exists e fs p h c t,
  load 5 e fs p = Result true h c t /\ config_changed fs (Some p) (Some p) (Some h) = PyVal true.
Proof.
  exists (ex_env [(101, dict_file [] [2] [(7, 70)])]), (ex_fs [(1, 101); (2, 999)]), 1. do 3 eexists.
  split; vm_compute; reflexivity.
Qed.
Print Assumptions C40_false_alarm_refuted.

(** A file that was loaded and then skipped can be removed unnoticed: 1 includes 2
    and, optionally, 2 again; 2 includes 3. *)
Theorem C40_removed_refuted : exists e fs p h c t fs' q x,
  load 7 e fs p = Result true h c t /\ requires e fs p q /\ fs q = Text x /\ fs' q = Missing
  /\ config_changed fs' (Some p) (Some p) (Some h) = PyVal false
  /\ exists h' c' t', load 7 e fs' p = Result false h' c' t'.
Proof.
  exists (ex_env [(101, dict_file [2] [2] []); (102, dict_file [3] [] [(7, 70)]); (103, dict_file [] [] [])]),
    (ex_fs [(1, 101); (2, 102); (3, 103)]), 1.
  do 3 eexists. exists (ex_fs [(1, 101); (3, 103)]), 2, 102.
  split; [vm_compute; reflexivity|]. split.
  { eexists _, [2], 2. split; [exists 101; split; reflexivity|]. split; [reflexivity|]. split; [left; reflexivity|reflexivity]. }
  split; [reflexivity|]. split; [reflexivity|]. split; [vm_compute; reflexivity|]. do 3 eexists. vm_compute. reflexivity.
Qed.
Print Assumptions C40_removed_refuted.

(** A file that has become unreadable raises instead. *)
Theorem C40_unreadable_refuted : exists e fs p h c t fs',
  load 5 e fs p = Result true h c t /\ config_changed fs' (Some p) (Some p) (Some h) = PyRaise.
Proof.
  exists (ex_env [(101, dict_file [] [] [(7, 70)])]), (ex_fs [(1, 101)]), 1. do 3 eexists. exists (fun _ => Unreadable).
  split; vm_compute; reflexivity.
Qed.
Print Assumptions C40_unreadable_refuted.

(** After a configuration was rejected every request loads again, for as long as
    the file exists. *)
Theorem C40_retry_after_rejection : forall fuel e accept revert fs w f w' fs1,
  parse_configs fuel e accept revert fs w f = PyVal (w', fs1, false) ->
  forall fs', isfile fs' f = true ->
  config_changed fs' (w_file w') (Some f) (w_hashes w') = PyVal true.
Proof.
  intros fuel e accept revert fs w f w' fs1 P fs' F. unfold parse_configs in P.
  destruct (dp_parser fuel e accept fs f) as [|[[[h c] t]|]]; [discriminate..|]. injection P as <- _.
  unfold config_changed. cbn [watch_update w_file w_hashes]. rewrite Z.eqb_refl. cbn [hashes_changed].
  unfold isfile in F. destruct (fs' f); [discriminate|reflexivity..].
Qed.
Print Assumptions C40_retry_after_rejection.
Example C40_retry_case :
  parse_configs 5 ex1_env (fun _ => false) false ex1_fs watch0 1
  = PyVal (mkWatch (Some 1) (Some [(1, None)]) None [], ex1_fs, false).
Proof. reflexivity. Qed.

(** ** C56: automatic revert *)

(** After a good configuration, whatever happens to the files, if the new
    configuration is rejected then a revert followed by a reload request brings
    the good configuration back, unless a file it had skipped now exists. *)
Theorem C56_revert_restores : forall fuel e accept fs w f w1 fsa,
  parse_configs fuel e accept true fs w f = PyVal (w1, fsa, true) ->
  exists h c t log, load fuel e fs f = Result true h c t /\ w_conf w1 = Some t /\ describes e fs f log h t /\
  forall fs1 w2 fs2, parse_configs fuel e accept true fs1 w1 f = PyVal (w2, fs2, false) ->
    (forall q, In q (skipped log) -> fs2 q = Missing) ->
    exists w3, request_reload fuel e accept true fs2 w2 f = PyVal (w3, fs2, Some true) /\ w_conf w3 = Some t.
Proof.
  intros fuel e accept fs w f w1 fsa P. unfold parse_configs in P.
  destruct (dp_parser fuel e accept fs f) as [|[[[h c] t]|]] eqn:DP; [discriminate| |discriminate].
  injection P as <- _. unfold dp_parser in DP.
  destruct (fs f) as [| |x] eqn:F; [discriminate..|]. destruct (parse e x) as [| |d] eqn:PX; [discriminate..|].
  destruct (pa_version d) eqn:V; [|discriminate].
  destruct (load fuel e fs f) as [| |ok h0 c0 t0] eqn:L; [discriminate..|].
  destruct (ok && accept t0) eqn:OK; [|discriminate]. apply andb_true_iff in OK as [-> AC]. injection DP as <- <- <-.
  destruct (load_log _ _ _ _ _ _ _ L) as (log & D & R & M & FC & N).
  exists h0, c0, t0, log. split; [reflexivity|]. split; [reflexivity|]. split; [exact D|].
  intros fs1 w2 fs2 P2 SK. unfold parse_configs in P2.
  destruct (dp_parser fuel e accept fs1 f) as [|[[[h2 c2] t2]|]]; [discriminate..|].
  cbn [w_good] in P2. injection P2 as <- F2.
  assert (W : forall q x, In (Loaded q x) log -> fs2 q = Text x).
  { intros q y I. rewrite <- F2, write_files_get.
    assert (WR : written q c0 = Some y).
    { pose proof (M q y I) as G. apply get_entry in G.
      assert (ALL : forall z, In (q, z) c0 -> z = y).
      { intros z J. pose proof (FC _ _ J) as A. rewrite (FC _ _ G) in A. congruence. }
      clear - G ALL. unfold written.
      assert (GEN : forall acc, (acc = None \/ acc = Some y) -> (In (q, y) c0 \/ acc = Some y) ->
        fold_left (fun acc (kv : Z * Z) => if fst kv =? q then Some (snd kv) else acc) c0 acc = Some y).
      { clear G. induction c0 as [|[a b] c IH]; intros acc A B; simpl; [destruct B as [[]|B]; exact B|].
        apply IH; [intros z J; apply ALL; right; exact J| |].
        - destruct (a =? q) eqn:X; [|exact A]. apply Z.eqb_eq in X as ->. right. f_equal. apply ALL. left. reflexivity.
        - destruct (a =? q) eqn:X; [apply Z.eqb_eq in X as ->; right; f_equal; apply ALL; left; reflexivity|].
          destruct B as [[B|B]|B]; [|left; exact B|right; exact B]. injection B as -> ->. rewrite Z.eqb_refl in X. discriminate. }
      apply GEN; auto. }
    rewrite WR. reflexivity. }
  assert (A : agrees log fs2).
  { split; [exact W|]. intros q I. apply SK, skipped_in, I. }
  destruct (R fs2 A) as [c' L2].
  destruct (proj1 (loaded_in f log) (ds_top _ _ _ _ _ _ D)) as [y Y].
  assert (y = x) by (pose proof (ds_text _ _ _ _ _ _ D _ _ Y) as Z0; rewrite F in Z0; congruence). subst y.
  pose proof (W _ _ Y) as FF.
  unfold request_reload. cbn [watch_update w_file w_hashes]. unfold config_changed. rewrite Z.eqb_refl.
  cbn [hashes_changed]. rewrite FF. unfold parse_configs, dp_parser. rewrite FF, PX, V, L2, AC. cbn [andb].
  eexists. split; reflexivity.
Qed.
Print Assumptions C56_revert_restores.

(** A skipped file that is created with a bad configuration is not removed by the
    revert: the configuration stays rejected for ever. *)
Theorem C56_created_include_refuted : exists e accept fs w1 fs1 w2 fs2,
  parse_configs 5 e accept true fs watch0 1 = PyVal (w1, fs, true)
  /\ parse_configs 5 e accept true fs1 w1 1 = PyVal (w2, fs2, false)
  /\ exists w3 fs3, request_reload 5 e accept true fs2 w2 1 = PyVal (w3, fs3, Some false).
Proof.
  exists (ex_env [(101, dict_file [] [2] [(7, 70)]); (102, dict_file [] [] [(8, 80)])]),
    (fun t => match value t 0 8 with Some _ => false | None => true end), (ex_fs [(1, 101)]).
  eexists. exists (ex_fs [(1, 101); (2, 102)]). do 2 eexists.
  split; [vm_compute; reflexivity|]. split; [vm_compute; reflexivity|]. do 2 eexists. vm_compute. reflexivity.
Qed.
Print Assumptions C56_created_include_refuted.
