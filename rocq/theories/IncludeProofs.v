(** * Proofs about loading configuration files *)
From Coq Require Import ZArith List Bool Lia.
From Verif Require Import PyBase PyBaseProofs PacketModel IncludeModel IncludeSpec.
Import ListNotations.
Open Scope Z_scope.

(** ** Dictionaries *)

Section Dicts.
  Context {V : Type}.
  Implicit Types d a b : list (Z * V).

  Lemma zput_get : forall k v q d,
    dict_get Z.eqb q (dict_put Z.eqb k v d) = if q =? k then Some v else dict_get Z.eqb q d.
  Proof.
    induction d as [|[k' v'] d IH]; simpl; [destruct (q =? k) eqn:E; reflexivity|].
    destruct (k =? k') eqn:E; simpl.
    - apply Z.eqb_eq in E as ->. destruct (q =? k'); reflexivity.
    - rewrite IH. destruct (q =? k') eqn:F; [|reflexivity].
      apply Z.eqb_eq in F as ->. rewrite Z.eqb_sym, E. reflexivity.
  Qed.

  Lemma zput_keys : forall k v d,
    exists r, map fst (dict_put Z.eqb k v d) = map fst d ++ r.
  Proof.
    induction d as [|[k' v'] d [r IH]]; simpl; [exists [k]; reflexivity|].
    destruct (k =? k') eqn:E; simpl; [exists []; rewrite app_nil_r; reflexivity|].
    exists r. rewrite IH. reflexivity.
  Qed.

  Lemma zput_in : forall k v q d, In q (map fst (dict_put Z.eqb k v d)) <-> q = k \/ In q (map fst d).
  Proof.
    induction d as [|[k' v'] d IH]; simpl; [intuition|].
    destruct (k =? k') eqn:E; simpl.
    - apply Z.eqb_eq in E as ->. intuition.
    - rewrite IH. intuition.
  Qed.

  Lemma zput_nodup : forall k v d, NoDup (map fst d) -> NoDup (map fst (dict_put Z.eqb k v d)).
  Proof.
    induction d as [|[k' v'] d IH]; intros N; simpl; [repeat constructor; intros []|].
    inversion N; subst. destruct (k =? k') eqn:E; simpl; [exact N|].
    constructor; [|auto]. intros I. apply zput_in in I as [I|I]; [|contradiction].
    subst. rewrite Z.eqb_refl in E. discriminate.
  Qed.

  Lemma update_nodup : forall b a, NoDup (map fst a) -> NoDup (map fst (dict_update a b)).
  Proof.
    induction b as [|[k v] b IH]; intros a N; [exact N|]. apply (IH (dict_put Z.eqb k v a)). apply zput_nodup, N.
  Qed.

  Lemma update_keys : forall b a, exists r, map fst (dict_update a b) = map fst a ++ r.
  Proof.
    induction b as [|[k v] b IH]; intros a; [exists []; rewrite app_nil_r; reflexivity|].
    destruct (IH (dict_put Z.eqb k v a)) as [r R]. destruct (zput_keys k v a) as [r' R'].
    exists (r' ++ r). unfold dict_update in *. simpl. rewrite R, R', app_assoc. reflexivity.
  Qed.

  Lemma zput_fresh : forall k v d, ~ In k (map fst d) -> dict_put Z.eqb k v d = d ++ [(k, v)].
  Proof.
    induction d as [|[k' v'] d IH]; intros N; [reflexivity|]. simpl.
    destruct (k =? k') eqn:E; [apply Z.eqb_eq in E; subst; elim N; left; reflexivity|].
    rewrite IH; [reflexivity|]. intros I. apply N. right. exact I.
  Qed.

  Lemma zput_over : forall k v v' a b, ~ In k (map fst a) ->
    dict_put Z.eqb k v (a ++ (k, v') :: b) = a ++ (k, v) :: b.
  Proof.
    induction a as [|[k1 v1] a IH]; intros b N; simpl; [rewrite Z.eqb_refl; reflexivity|].
    destruct (k =? k1) eqn:E; [apply Z.eqb_eq in E; subst; elim N; left; reflexivity|].
    rewrite IH; [reflexivity|]. intros I. apply N. right. exact I.
  Qed.

  Lemma update_over : forall b done a, map fst a = map fst b -> NoDup (map fst (done ++ b)) ->
    dict_update (done ++ a) b = done ++ b.
  Proof.
    induction b as [|[k v] b IH]; intros done a E N.
    - apply map_eq_nil in E as ->. reflexivity.
    - destruct a as [|[k1 v1] a]; [discriminate|]. simpl in E. injection E as -> E.
      unfold dict_update. simpl. rewrite zput_over.
      + change (dict_update (done ++ (k, v) :: a) b = done ++ (k, v) :: b).
        replace (done ++ (k, v) :: a) with ((done ++ [(k, v)]) ++ a) by (rewrite <- app_assoc; reflexivity).
        rewrite IH; [rewrite <- app_assoc; reflexivity|exact E|rewrite <- app_assoc; exact N].
      + rewrite map_app in N. apply NoDup_remove_2 in N. intros I. apply N, in_or_app. left. exact I.
  Qed.

  Lemma update_fresh : forall b a, NoDup (map fst (a ++ b)) -> dict_update a b = a ++ b.
  Proof.
    induction b as [|[k v] b IH]; intros a N; [rewrite app_nil_r; reflexivity|].
    unfold dict_update. simpl. rewrite zput_fresh.
    - change (dict_update (a ++ [(k, v)]) b = a ++ (k, v) :: b).
      rewrite IH; rewrite <- app_assoc; [reflexivity|exact N].
    - rewrite map_app in N. apply NoDup_remove_2 in N. intros I. apply N, in_or_app. left. exact I.
  Qed.

  Lemma update_app : forall b1 b2 a, dict_update a (b1 ++ b2) = dict_update (dict_update a b1) b2.
  Proof. intros. unfold dict_update. apply fold_left_app. Qed.

  Lemma update_absorb : forall l d, NoDup (map fst d) -> dict_update d (dict_update d l) = dict_update d l.
  Proof.
    intros l d N. set (d' := dict_update d l).
    assert (N' : NoDup (map fst d')) by (apply update_nodup, N).
    destruct (update_keys l d) as [r R]. fold d' in R.
    assert (S : exists a b, d' = a ++ b /\ map fst a = map fst d).
    { exists (firstn (length d) d'), (skipn (length d) d'). split; [symmetry; apply firstn_skipn|].
      rewrite <- firstn_map, R, firstn_app, map_length, Nat.sub_diag, app_nil_r.
      rewrite <- (map_length fst d) at 1. apply firstn_all. }
    destruct S as (a & b & E & K). rewrite E in *. clear E R. rewrite update_app.
    assert (A : dict_update d a = a).
    { change d with (@nil (Z * V) ++ d). change a with (@nil (Z * V) ++ a) at 2. apply update_over; [congruence|].
      simpl. rewrite K. exact N. }
    rewrite A. apply update_fresh, N'.
  Qed.

  Lemma update_get : forall l d q,
    dict_get Z.eqb q (dict_update d l)
    = fold_left (fun acc kv => if fst kv =? q then Some (snd kv) else acc) l (dict_get Z.eqb q d).
  Proof.
    induction l as [|[k v] l IH]; intros d q; [reflexivity|].
    unfold dict_update in *. simpl. rewrite IH, zput_get, Z.eqb_sym. reflexivity.
  Qed.

  Lemma has_in : forall k d, has k d = true <-> In k (map fst d).
  Proof.
    intros k d. unfold has. induction d as [|[k' v] d IH]; simpl; [split; [discriminate|intros []]|].
    destruct (k =? k') eqn:E.
    - apply Z.eqb_eq in E. split; [left; congruence|reflexivity].
    - rewrite IH. apply Z.eqb_neq in E. intuition.
  Qed.
End Dicts.

Lemma written_from : forall k l acc,
  fold_left (fun acc (kv : Z * Z) => if fst kv =? k then Some (snd kv) else acc) l acc
  = match written k l with Some v => Some v | None => acc end.
Proof.
  intros k l. unfold written. induction l as [|[a b] l IH]; intros acc; [reflexivity|]. simpl.
  rewrite IH. rewrite (IH (if a =? k then Some b else None)).
  destruct (fold_left _ l None); [reflexivity|]. destruct (a =? k); reflexivity.
Qed.

Lemma read_all_app : forall e fs a b s k old,
  read_all e fs (a ++ b) s k old = read_all e fs b s k (read_all e fs a s k old).
Proof. intros. unfold read_all. apply fold_left_app. Qed.

Lemma kept_app : forall a b p old, kept (a ++ b) p old = kept b p (kept a p old).
Proof. intros. unfold kept. apply fold_left_app. Qed.

Lemma loaded_app : forall a b, loaded (a ++ b) = loaded a ++ loaded b.
Proof. intros. unfold loaded. apply flat_map_app. Qed.
Lemma skipped_app : forall a b, skipped (a ++ b) = skipped a ++ skipped b.
Proof. intros. unfold skipped. apply flat_map_app. Qed.

Lemma loaded_in : forall p log, In p (loaded log) <-> exists x, In (Loaded p x) log.
Proof.
  intros p log. unfold loaded. rewrite in_flat_map. split.
  - intros ([q x|q] & I & J); [destruct J as [->|[]]; eauto|destruct J].
  - intros [x I]. exists (Loaded p x). split; [exact I|left; reflexivity].
Qed.
Lemma skipped_in : forall p log, In p (skipped log) <-> In (Skipped p) log.
Proof.
  intros p log. unfold skipped. rewrite in_flat_map. split.
  - intros ([q x|q] & I & J); [destruct J|destruct J as [->|[]]; exact I].
  - intros I. exists (Skipped p). split; [exact I|left; reflexivity].
Qed.

(** ** Sections *)

(** [t'] is [t] with more written to its sections. *)
Definition grown (t t' : tops) : Prop :=
  Forall2 (fun a b => fst a = fst b /\ exists l, snd b = dict_update (snd a) l) t t'.
Definition tidy (t : tops) : Prop := NoDup (map fst t) /\ Forall (fun a => NoDup (map fst (snd a))) t.

Lemma grown_refl : forall t, grown t t.
Proof. induction t; constructor; [split; [reflexivity|exists []; reflexivity]|exact IHt]. Qed.
Lemma grown_trans : forall a b c, grown a b -> grown b c -> grown a c.
Proof.
  intros a b c G. revert c. induction G as [|x y a b [E [l L]] G IH]; intros c H; inversion H as [|? z ? c' [E' [l' L']] H']; subst.
  - constructor.
  - constructor; [|apply IH, H'].
    split; [congruence|]. exists (l ++ l'). rewrite update_app, <- L. exact L'.
Qed.
Lemma grown_keys : forall a b, grown a b -> map fst a = map fst b.
Proof. induction 1 as [|x y a b [E _] G IH]; simpl; congruence. Qed.
Lemma grown_tidy : forall a b, grown a b -> tidy a -> tidy b.
Proof.
  intros a b G [N F]. split; [rewrite <- (grown_keys _ _ G); exact N|].
  clear N. induction G as [|x y a b [_ [l L]] G IH]; [constructor|]. inversion F; subst.
  constructor; [rewrite L; apply update_nodup; assumption|auto].
Qed.

Lemma commit_get : forall (t' : tops) a b, NoDup (map fst t') -> In (a, b) t' -> dict_get Z.eqb a t' = Some b.
Proof.
  induction t' as [|[k v] t' IH]; intros a b N I; [destruct I|]. inversion N; subst. simpl. destruct I as [I|I].
  - injection I as -> ->. rewrite Z.eqb_refl. auto.
  - destruct (a =? k) eqn:E; [|apply (IH _ _ H2 I)].
    apply Z.eqb_eq in E as ->. elim H1. apply in_map_iff. exists (k, b). auto.
Qed.

Lemma commit_grown : forall t t', tidy t -> grown t t' -> commit_tops t t' = t'.
Proof.
  intros t t' T G. pose proof (grown_tidy _ _ G T) as T'.
  assert (GEN : forall a b, grown a b -> Forall (fun a => NoDup (map fst (snd a))) a -> (forall x, In x b -> In x t') ->
    map (fun nd => (fst nd, dict_update (snd nd) (match dict_get Z.eqb (fst nd) t' with Some d => d | None => [] end))) a = b).
  { clear G T. intros a b G. induction G as [|[k v] [k' v'] a b [E [l L]] G IH]; intros F SUB; [reflexivity|].
    simpl in E, L. subst k' v'. inversion F; subst. simpl. f_equal.
    - f_equal. rewrite (commit_get t' k (dict_update v l) (proj1 T') (SUB _ (or_introl eq_refl))).
      apply update_absorb. assumption.
    - apply IH; [assumption|]. intros x I. apply SUB. right. exact I. }
  unfold commit_tops. apply GEN; [exact G|apply T|auto].
Qed.

Lemma update_tops_grown : forall d t t', update_tops t d = Some t' -> grown t t'.
Proof.
  intros d. induction t as [|[n v] t IH]; intros t' E; simpl in E.
  - injection E as <-. constructor.
  - destruct (pa_section d n) as [l|]; [|discriminate]. destruct (update_tops t d) as [r|]; [|discriminate].
    injection E as <-. constructor; [|apply IH; reflexivity]. split; [reflexivity|exists l; reflexivity].
Qed.

Lemma update_tops_value : forall d t t' s k, update_tops t d = Some t' -> In s (map fst t) ->
  value t' s k = match pa_section d s with
                 | Entries l => match written k l with Some v => Some v | None => value t s k end
                 | BadSection => value t s k
                 end.
Proof.
  intros d. induction t as [|[n v] t IH]; intros t' s k E I; simpl in E; [destruct I|].
  destruct (pa_section d n) as [l|] eqn:P; [|discriminate]. destruct (update_tops t d) as [r|] eqn:U; [|discriminate].
  injection E as <-. unfold value. simpl. destruct (s =? n) eqn:X.
  - apply Z.eqb_eq in X as ->. rewrite P, update_get, written_from. reflexivity.
  - destruct I as [I|I]; [simpl in I; subst; rewrite Z.eqb_refl in X; discriminate|].
    exact (IH r s k eq_refl I).
Qed.

Lemma update_tops_bad : forall d t s, In s (map fst t) -> pa_section d s = BadSection -> update_tops t d = None.
Proof.
  intros d. induction t as [|[n v] t IH]; intros s I B; [destruct I|]. simpl.
  destruct I as [I|I]; [simpl in I; subst; rewrite B; reflexivity|].
  destruct (pa_section d n); [|reflexivity]. rewrite (IH s I B). reflexivity.
Qed.

Lemma update_tops_some : forall d t, (forall s, In s (map fst t) -> pa_section d s <> BadSection) ->
  exists t', update_tops t d = Some t'.
Proof.
  intros d. induction t as [|[n v] t IH]; intros F; [exists []; reflexivity|]. simpl.
  destruct (pa_section d n) as [l|] eqn:P; [|elim (F n (or_introl eq_refl) P)].
  destruct IH as [t' ->]; [intros s I; apply F; right; exact I|]. eauto.
Qed.

(** ** What a load did *)

Section Load.
  Variable e : env.
  Variable fs : fsys.

  (** A path that an include directive, optional or not, of [p] names. *)
  Definition names (p q : Z) : Prop := requires e fs p q \/ may_include e fs p q.

  (** The notes of a log are about files, closed under includes. *)
  Record logged (log : list note) : Prop := {
    lg_text : forall p x, In (Loaded p x) log -> fs p = Text x;
    lg_sound : forall p, In p (loaded log) -> sound e fs p;
    lg_required : forall p q, In p (loaded log) -> requires e fs p q -> In q (loaded log);
    lg_optional : forall p q, In p (loaded log) -> may_include e fs p q -> In q (loaded log) \/ In q (skipped log)
  }.

  (** Going from the dictionaries [h] and [t] to [h'] and [t'] is what [log] says. *)
  Record effect (log : list note) (h h' : hashes) (t t' : tops) : Prop := {
    ef_hash : forall q, dict_get Z.eqb q h' = kept log q (dict_get Z.eqb q h);
    ef_value : forall s k, In s TOP_CONFS -> value t' s k = read_all e fs (loaded log) s k (value t s k);
    ef_hext : exists kvs, h' = dict_update h kvs;
    ef_grown : grown t t'
  }.

  Lemma effect_nil : forall h t, effect [] h h t t.
  Proof. intros. constructor; intros; try reflexivity; [exists []; reflexivity|apply grown_refl]. Qed.
  Lemma effect_app : forall l1 l2 h0 h1 h2 t0 t1 t2,
    effect l1 h0 h1 t0 t1 -> effect l2 h1 h2 t1 t2 -> effect (l1 ++ l2) h0 h2 t0 t2.
  Proof.
    intros l1 l2 h0 h1 h2 t0 t1 t2 [A1 B1 [k1 C1] D1] [A2 B2 [k2 C2] D2]. constructor.
    - intros q. rewrite kept_app, A2, A1. reflexivity.
    - intros s k I. rewrite loaded_app, read_all_app, <- B1, <- B2 by exact I. reflexivity.
    - exists (k1 ++ k2). rewrite update_app, <- C1. exact C2.
    - exact (grown_trans _ _ _ D1 D2).
  Qed.
  Lemma effect_skip : forall q h t, effect [Skipped q] h (dict_put Z.eqb q None h) t t.
  Proof.
    intros q h t. constructor.
    - intros p. rewrite zput_get. unfold kept. cbn. rewrite (Z.eqb_sym p q). reflexivity.
    - reflexivity.
    - exists [(q, None)]. reflexivity.
    - apply grown_refl.
  Qed.

  (** Other files that agree with a log: loaded files are the same, skipped ones
      are not there. *)
  Definition agrees (log : list note) (fs' : fsys) : Prop :=
    (forall q x, In (Loaded q x) log -> fs' q = Text x) /\ (forall q, In (Skipped q) log -> fs' q = Missing).

  Lemma agrees_app : forall l1 l2 fs', agrees (l1 ++ l2) fs' <-> agrees l1 fs' /\ agrees l2 fs'.
  Proof.
    intros l1 l2 fs'. unfold agrees. split.
    - intros [A B]. repeat split; intros; try apply A; try apply B; apply in_app_iff; auto.
    - intros [[A B] [C D]]. split; intros; rewrite in_app_iff in *; intuition.
  Qed.

  (** Contents only grow, and are those of the files. *)
  Definition faithful (c : contents) : Prop := forall q y, In (q, y) c -> fs q = Text y.
  Definition cgrow (c c' : contents) : Prop :=
    (forall q, In q (map fst c) -> In q (map fst c')) /\ (faithful c -> faithful c').

  Lemma cgrow_refl : forall c, cgrow c c.
  Proof. split; auto. Qed.
  Lemma cgrow_trans : forall a b c, cgrow a b -> cgrow b c -> cgrow a c.
  Proof. intros a b c [A1 A2] [B1 B2]. split; auto. Qed.

  Lemma zput_entry : forall (V : Type) k (v : V) d q y,
    In (q, y) (dict_put Z.eqb k v d) -> (q = k /\ y = v) \/ In (q, y) d.
  Proof.
    induction d as [|[k' v'] d IH]; intros q y I; simpl in I.
    - destruct I as [I|[]]. injection I as -> ->. auto.
    - destruct (k =? k') eqn:E.
      + apply Z.eqb_eq in E as ->. destruct I as [I|I]; [injection I as -> ->; auto|right; right; exact I].
      + destruct I as [I|I]; [right; left; exact I|]. destruct (IH _ _ I); [auto|right; right; assumption].
  Qed.
  Lemma update_entry : forall (V : Type) l (d : list (Z * V)) q y,
    In (q, y) (dict_update d l) -> In (q, y) l \/ In (q, y) d.
  Proof.
    induction l as [|[k v] l IH]; intros d q y I; [auto|].
    destruct (IH (dict_put Z.eqb k v d) q y I) as [J|J]; [left; right; exact J|].
    apply zput_entry in J as [[-> ->]|J]; [left; left; reflexivity|auto].
  Qed.
  Lemma get_entry : forall (V : Type) (d : list (Z * V)) q y, dict_get Z.eqb q d = Some y -> In (q, y) d.
  Proof.
    induction d as [|[k v] d IH]; intros q y E; [discriminate|]. simpl in E.
    destruct (q =? k) eqn:X; [apply Z.eqb_eq in X as ->; injection E as ->; left; reflexivity|right; auto].
  Qed.
  Lemma key_get : forall (V : Type) (d : list (Z * V)) q, In q (map fst d) -> exists v, dict_get Z.eqb q d = Some v.
  Proof. intros V d q I. apply has_in in I. unfold has in I. destruct (dict_get Z.eqb q d); [eauto|discriminate]. Qed.
  Lemma update_key : forall (V : Type) l (d : list (Z * V)) q,
    In q (map fst (dict_update d l)) <-> In q (map fst l) \/ In q (map fst d).
  Proof.
    induction l as [|[k v] l IH]; intros d q; [simpl; tauto|].
    change (dict_update d ((k, v) :: l)) with (dict_update (dict_put Z.eqb k v d) l). rewrite IH, zput_in. simpl.
    intuition.
  Qed.

  Lemma each_contents : forall rec required p h0,
    (forall h c q t ok h' c' t', rec h c q t = Result ok h' c' t' -> cgrow c c') ->
    forall l h c t,
      match include_each rec e required p h0 l h c t with LFailed c' => cgrow c c' | LNext _ c' _ => cgrow c c' | _ => True end.
  Proof.
    intros rec required p h0 OK. induction l as [|n l IH]; intros h c t; simpl; [apply cgrow_refl|].
    destruct (has (resolve e p n) h0); [apply cgrow_refl|].
    destruct (rec h c (resolve e p n) t) as [| |ok h1 c1 t1] eqn:R; [exact I..|]. apply OK in R.
    destruct ok.
    - specialize (IH h1 c1 t1). destruct (include_each rec e required p h0 l h1 c1 t1); auto; exact (cgrow_trans _ _ _ R IH).
    - destruct required; [exact R|].
      specialize (IH (dict_put Z.eqb (resolve e p n) None h1) c1 t1).
      destruct (include_each rec e false p h0 l (dict_put Z.eqb (resolve e p n) None h1) c1 t1); auto; exact (cgrow_trans _ _ _ R IH).
  Qed.

  Lemma include_contents : forall k h c p t ok h' c' t', dp_include k e fs h c p t = Result ok h' c' t' -> cgrow c c'.
  Proof.
    induction k as [|k IH]; intros h c p t ok h' c' t' E; [discriminate|]. cbn [dp_include] in E.
    destruct (fs p) as [| |x] eqn:F; [injection E as _ _ <- _; apply cgrow_refl..|].
    destruct (parse e x) as [| |d] eqn:P; [injection E as _ _ <- _; apply cgrow_refl|discriminate|].
    destruct (pa_unknown d) eqn:U; [injection E as _ _ <- _; apply cgrow_refl|].
    destruct (update_tops t d) as [t1|] eqn:T; [|injection E as _ _ <- _; apply cgrow_refl].
    destruct (pa_include d) as [l1|] eqn:I1; [|injection E as _ _ <- _; apply cgrow_refl].
    pose proof (each_contents (dp_include k e fs) true p h IH l1 (dict_put Z.eqb p (Some x) h) c t1) as G1.
    destruct (include_each (dp_include k e fs) e true p h l1 (dict_put Z.eqb p (Some x) h) c t1) as [| | |h2 c2 t2] eqn:E1;
      [discriminate..|injection E as _ _ <- _; exact G1|].
    destruct (pa_optional d) as [l2|] eqn:I2; [|injection E as _ _ <- _; exact G1].
    pose proof (each_contents (dp_include k e fs) false p h IH l2 h2 c2 t2) as G2.
    destruct (include_each (dp_include k e fs) e false p h l2 h2 c2 t2) as [| | |h3 c3 t3] eqn:E2;
      [discriminate..|injection E as _ _ <- _; exact (cgrow_trans _ _ _ G1 G2)|].
    injection E as _ _ <- _. pose proof (cgrow_trans _ _ _ G1 G2) as [K3 F3]. split.
    - intros q I. apply update_key. right. apply K3, I.
    - intros FF q y I. apply update_entry in I as [I|I]; [|exact (F3 FF _ _ I)].
      apply zput_entry in I as [[-> ->]|I]; [exact F|exact (FF _ _ I)].
  Qed.

  Definition calls_ok (k : nat) : Prop :=
    forall h c p t ok h' c' t', dp_include k e fs h c p t = Result ok h' c' t' ->
      NoDup (map fst h) -> tidy t -> (forall s, In s TOP_CONFS -> In s (map fst t)) ->
      if ok then exists log, logged log /\ effect log h h' t t' /\ (In p (loaded log) /\ reads e fs p log)
                   /\ (forall q, In q (loaded log ++ skipped log) -> q = p \/ exists r, In r (loaded log) /\ names r q)
                   /\ (forall fs', agrees log fs' -> forall c2,
                         exists c2', dp_include k e fs' h c2 p t = Result true h' c2' t')
                   /\ (forall q, In q (loaded log) -> In q (map fst c'))
                   /\ (forall q, In q (skipped log) -> exists r, In r (loaded log) /\ may_include e fs r q)
      else h' = h /\ t' = t.

  Lemma each_ok : forall k required p h0, calls_ok k ->
    forall l h c t h' c' t', include_each (dp_include k e fs) e required p h0 l h c t = LNext h' c' t' ->
    NoDup (map fst h) -> tidy t -> (forall s, In s TOP_CONFS -> In s (map fst t)) ->
    exists log, logged log /\ effect log h h' t t'
      /\ ((forall n, In n l -> In (resolve e p n) (loaded log) \/ (required = false /\ In (resolve e p n) (skipped log)))
          /\ reads_each e fs required p l log)
      /\ (forall q, In q (loaded log ++ skipped log) ->
            (exists n, In n l /\ q = resolve e p n) \/ exists r, In r (loaded log) /\ names r q)
      /\ (forall fs', agrees log fs' -> forall c2,
            exists c2', include_each (dp_include k e fs') e required p h0 l h c2 t = LNext h' c2' t')
      /\ (forall q, In q (loaded log) -> In q (map fst c'))
      /\ (forall q, In q (skipped log) ->
            (required = false /\ exists n, In n l /\ q = resolve e p n) \/ exists r, In r (loaded log) /\ may_include e fs r q).
  Proof.
    intros k required p h0 OK. induction l as [|n l IH]; intros h c t h' c' t' E N T K; simpl in E.
    - injection E as <- <- <-. exists []. split; [|split; [exact (effect_nil h t)|split]].
      + constructor; intros; contradiction.
      + split; [intros; contradiction|constructor].
      + split; [intros; contradiction|]. split; [|split; intros; contradiction]. intros fs' _ c2. exists c2. reflexivity.
    - cbn [include_each]. destruct (has (resolve e p n) h0); [discriminate|].
      destruct (dp_include k e fs h c (resolve e p n) t) as [| |ok h1 c1 t1] eqn:R; [discriminate..|].
      specialize (OK _ _ _ _ _ _ _ _ R N T K). destruct ok.
      + destruct OK as (log1 & L1 & F1 & [P1 RD1] & C1 & R1 & M1 & S1).
        destruct (IH _ _ _ _ _ _ E) as (log2 & L2 & F2 & [P2 RD2] & C2 & R2 & M2 & S2).
        { destruct (ef_hext _ _ _ _ _ F1) as [kv ->]. apply update_nodup, N. }
        { exact (grown_tidy _ _ (ef_grown _ _ _ _ _ F1) T). }
        { intros s I. rewrite <- (grown_keys _ _ (ef_grown _ _ _ _ _ F1)). apply K, I. }
        exists (log1 ++ log2). rewrite loaded_app, skipped_app. split; [|split; [|split; [|split; [|split; [|split]]]]].
        * constructor.
          -- intros q x I. apply in_app_iff in I as [I|I]; [exact (lg_text _ L1 _ _ I)|exact (lg_text _ L2 _ _ I)].
          -- intros q I. rewrite loaded_app in I. apply in_app_iff in I as [I|I];
               [exact (lg_sound _ L1 _ I)|exact (lg_sound _ L2 _ I)].
          -- intros q r I Q. rewrite loaded_app in *. apply in_app_iff in I as [I|I]; apply in_app_iff.
             ++ left. exact (lg_required _ L1 _ _ I Q).
             ++ right. exact (lg_required _ L2 _ _ I Q).
          -- intros q r I Q. rewrite loaded_app, skipped_app in *. rewrite !in_app_iff.
             apply in_app_iff in I as [I|I].
             ++ destruct (lg_optional _ L1 _ _ I Q); auto.
             ++ destruct (lg_optional _ L2 _ _ I Q); auto.
        * exact (effect_app _ _ _ _ _ _ _ _ F1 F2).
        * split; [|exact (reads_next _ _ _ _ _ _ _ _ RD1 RD2)].
          intros m [<-|I]; [left; apply in_app_iff; left; exact P1|].
          destruct (P2 m I) as [J|[J1 J2]]; [left; apply in_app_iff; auto|right; rewrite in_app_iff; auto].
        * intros q I. assert (I' : In q (loaded log1 ++ skipped log1) \/ In q (loaded log2 ++ skipped log2))
            by (rewrite !in_app_iff in *; tauto).
          destruct I' as [I'|I'].
          -- destruct (C1 _ I') as [->|[r [J1 J2]]]; [left; exists n; split; [left; reflexivity|reflexivity]|].
             right. exists r. rewrite in_app_iff. auto.
          -- destruct (C2 _ I') as [[m [J1 J2]]|[r [J1 J2]]]; [left; exists m; split; [right; exact J1|exact J2]|].
             right. exists r. rewrite in_app_iff. auto.
        * intros fs' A c2. apply agrees_app in A as [A1 A2]. destruct (R1 fs' A1 c2) as [c3 ->]. apply R2, A2.
        * intros q I. apply in_app_iff in I as [I|I]; [|exact (M2 q I)].
          pose proof (each_contents (dp_include k e fs) required p h0 (include_contents k) l h1 c1 t1) as G.
          rewrite E in G. apply G, M1, I.
        * intros q I. apply in_app_iff in I as [I|I].
          -- destruct (S1 q I) as (r & J1 & J2). right. exists r. rewrite in_app_iff. auto.
          -- destruct (S2 q I) as [(J0 & m & J1 & J2)|(r & J1 & J2)]; [left; split; [exact J0|]; exists m; split; [right; exact J1|exact J2]|].
             right. exists r. rewrite in_app_iff. auto.
      + assert (K0 : exists k', k = S k') by (destruct k as [|k']; [discriminate|eauto]). destruct K0 as [k' K0].
        destruct OK as [-> ->]. destruct required; [discriminate|].
        destruct (IH _ _ _ _ _ _ E) as (log2 & L2 & F2 & [P2 RD2] & C2 & R2 & M2 & S2); [apply zput_nodup, N|exact T|exact K|].
        exists (Skipped (resolve e p n) :: log2).
        split; [|split; [|split; [|split; [|split; [|split; [exact M2|]]]]]].
        * constructor.
          -- intros q x [I|I]; [discriminate|exact (lg_text _ L2 _ _ I)].
          -- intros q I. exact (lg_sound _ L2 _ I).
          -- intros q r I Q. exact (lg_required _ L2 _ _ I Q).
          -- intros q r I Q. destruct (lg_optional _ L2 _ _ I Q); [left|right; right]; assumption.
        * exact (effect_app [Skipped _] _ _ _ _ _ _ _ (effect_skip _ _ _) F2).
        * split; [|exact (reads_skip _ _ _ _ _ _ RD2)].
          intros m [<-|I]; [right; split; [reflexivity|left; reflexivity]|].
          destruct (P2 m I) as [J|[J1 J2]]; [left; exact J|right; split; [reflexivity|right; exact J2]].
        * intros q I. assert (I' : q = resolve e p n \/ In q (loaded log2 ++ skipped log2)).
          { apply in_app_iff in I as [I|I]; [right; apply in_app_iff; left; exact I|].
            destruct I as [I|I]; [left; auto|right; apply in_app_iff; right; exact I]. }
          destruct I' as [->|I']; [left; exists n; split; [left; reflexivity|reflexivity]|].
          destruct (C2 _ I') as [[m [J1 J2]]|[r [J1 J2]]]; [left; exists m; split; [right; exact J1|exact J2]|].
          right. exists r. auto.
        * intros fs' A c2. change (agrees ([Skipped (resolve e p n)] ++ log2) fs') in A. apply agrees_app in A as [A1 A2].
          replace (dp_include k e fs' h c2 (resolve e p n) t) with (Result false h c2 t); [apply R2, A2|].
          rewrite K0. cbn [dp_include]. rewrite (proj2 A1 _ (or_introl eq_refl)). reflexivity.
        * intros q [<-|I]; [left; split; [reflexivity|]; exists n; split; [left; reflexivity|reflexivity]|].
          destruct (S2 q I) as [(J0 & m & J1 & J2)|J]; [|right; exact J].
          left. split; [exact J0|]. exists m. split; [right; exact J1|exact J2].
  Qed.

  Lemma body_fun : forall p d d', body e fs p d -> body e fs p d' -> d = d'.
  Proof. intros p d d' (x & A & B) (y & C & D). congruence. Qed.

  (** A successful call, step by step. *)
  Lemma include_inv : forall k h c p t h' c' t', dp_include (S k) e fs h c p t = Result true h' c' t' ->
    exists x d t1 l1 h2 c2 t2 l2 h3 c3 t3,
      fs p = Text x /\ parse e x = YDict d /\ pa_unknown d = false /\ update_tops t d = Some t1
      /\ pa_include d = Names l1 /\ pa_optional d = Names l2
      /\ include_each (dp_include k e fs) e true p h l1 (dict_put Z.eqb p (Some x) h) c t1 = LNext h2 c2 t2
      /\ include_each (dp_include k e fs) e false p h l2 h2 c2 t2 = LNext h3 c3 t3
      /\ h' = dict_update h h3 /\ c' = dict_update c3 (dict_put Z.eqb p x c) /\ t' = commit_tops t t3.
  Proof.
    intros k h c p t h' c' t' E. cbn [dp_include] in E.
    destruct (fs p) as [| |x] eqn:F; [discriminate..|].
    destruct (parse e x) as [| |d] eqn:P; [discriminate..|].
    destruct (pa_unknown d) eqn:U; [discriminate|].
    destruct (update_tops t d) as [t1|] eqn:T; [|discriminate].
    destruct (pa_include d) as [l1|] eqn:I1; [|discriminate].
    destruct (include_each (dp_include k e fs) e true p h l1 (dict_put Z.eqb p (Some x) h) c t1) as [| | |h2 c2 t2] eqn:E1;
      [discriminate..|].
    destruct (pa_optional d) as [l2|] eqn:I2; [|discriminate].
    destruct (include_each (dp_include k e fs) e false p h l2 h2 c2 t2) as [| | |h3 c3 t3] eqn:E2; [discriminate..|].
    injection E as <- <- <-.
    exists x, d, t1, l1, h2, c2, t2, l2, h3, c3, t3. repeat split; assumption.
  Qed.

  Lemma include_false : forall k h c p t h' c' t', dp_include k e fs h c p t = Result false h' c' t' -> h' = h /\ t' = t.
  Proof.
    intros [|k] h c p t h' c' t' E; [discriminate|]. cbn [dp_include] in E.
    destruct (fs p) as [| |x] eqn:F; [injection E as <- _ <-; auto..|].
    destruct (parse e x) as [| |d] eqn:P; [injection E as <- _ <-; auto|discriminate|].
    destruct (pa_unknown d) eqn:U; [injection E as <- _ <-; auto|].
    destruct (update_tops t d) as [t1|] eqn:T; [|injection E as <- _ <-; auto].
    destruct (pa_include d) as [l1|] eqn:I1; [|injection E as <- _ <-; auto].
    destruct (include_each (dp_include k e fs) e true p h l1 (dict_put Z.eqb p (Some x) h) c t1) as [| | |h2 c2 t2] eqn:E1;
      [discriminate..|injection E as <- _ <-; auto|].
    destruct (pa_optional d) as [l2|] eqn:I2; [|injection E as <- _ <-; auto].
    destruct (include_each (dp_include k e fs) e false p h l2 h2 c2 t2) as [| | |h3 c3 t3] eqn:E2;
      [discriminate..|injection E as <- _ <-; auto|]. discriminate.
  Qed.

  Lemma effect_load : forall p x d h t t1, fs p = Text x -> parse e x = YDict d -> update_tops t d = Some t1 ->
    (forall s, In s TOP_CONFS -> In s (map fst t)) ->
    effect [Loaded p x] h (dict_put Z.eqb p (Some x) h) t t1.
  Proof.
    intros p x d h t t1 F P U K. constructor.
    - intros q. rewrite zput_get. unfold kept. cbn. rewrite (Z.eqb_sym q p). reflexivity.
    - intros s k I. rewrite (update_tops_value _ _ _ s k U (K s I)). unfold read_all, gives. cbn. rewrite F, P.
      destruct (pa_section d s); reflexivity.
    - exists [(p, Some x)]. reflexivity.
    - exact (update_tops_grown _ _ _ U).
  Qed.

  Theorem include_ok : forall k, calls_ok k.
  Proof.
    induction k as [|k IH]; intros h c p t ok h' c' t' E N T K; [discriminate|].
    destruct ok; [|exact (include_false _ _ _ _ _ _ _ _ E)].
    destruct (include_inv _ _ _ _ _ _ _ _ E) as (x & d & t1 & l1 & h2 & c2 & t2 & l2 & h3 & c3 & t3 &
      F & P & U & UT & I1 & I2 & E1 & E2 & -> & -> & ->).
    assert (B : body e fs p d) by (exists x; auto).
    pose proof (effect_load p x d h t t1 F P UT K) as F0.
    pose proof (update_tops_grown _ _ _ UT) as G1.
    destruct (each_ok _ _ _ _ IH _ _ _ _ _ _ _ E1) as (log1 & L1 & F1 & [P1 RD1] & C1 & R1 & M1 & S1).
    { apply zput_nodup, N. } { exact (grown_tidy _ _ G1 T). }
    { intros s I. rewrite <- (grown_keys _ _ G1). apply K, I. }
    pose proof (grown_trans _ _ _ G1 (ef_grown _ _ _ _ _ F1)) as G2.
    destruct (each_ok _ _ _ _ IH _ _ _ _ _ _ _ E2) as (log2 & L2 & F2 & [P2 RD2] & C2 & R2 & M2 & S2).
    { destruct (ef_hext _ _ _ _ _ F1) as [kv ->]. apply update_nodup, zput_nodup, N. }
    { exact (grown_tidy _ _ G2 T). }
    { intros s I. rewrite <- (grown_keys _ _ G2). apply K, I. }
    pose proof (effect_app _ _ _ _ _ _ _ _ F0 (effect_app _ _ _ _ _ _ _ _ F1 F2)) as FF.
    pose proof (ef_grown _ _ _ _ _ FF) as G3.
    assert (H3 : dict_update h h3 = h3).
    { destruct (ef_hext _ _ _ _ _ FF) as [kv ->]. apply update_absorb, N. }
    assert (T3 : commit_tops t t3 = t3) by (apply commit_grown; assumption).
    exists ([Loaded p x] ++ log1 ++ log2). rewrite H3, T3.
    assert (SP : forall q, q = p -> sound e fs q).
    { intros q ->. exists d. split; [exact B|split; [exact U|split; [|split; congruence]]].
      intros s I BS. rewrite (update_tops_bad _ _ _ (K s I) BS) in UT. discriminate. }
    assert (RQ : forall q, requires e fs p q -> In q (loaded log1)).
    { intros q (d' & l & n & B' & J & M & ->). rewrite <- (body_fun _ _ _ B B') in J. rewrite I1 in J. injection J as <-.
      destruct (P1 n M) as [Q|[Q _]]; [exact Q|discriminate]. }
    assert (OQ : forall q, may_include e fs p q -> In q (loaded log2) \/ In q (skipped log2)).
    { intros q (d' & l & n & B' & J & M & ->). rewrite <- (body_fun _ _ _ B B') in J. rewrite I2 in J. injection J as <-.
      destruct (P2 n M) as [Q|[_ Q]]; auto. }
    split; [|split; [exact FF|split; [|split; [|split; [|split]]]]].
    - constructor.
      + intros q y I. cbn [app] in I. destruct I as [I|I]; [injection I as <- <-; exact F|].
        apply in_app_iff in I as [I|I]; [exact (lg_text _ L1 _ _ I)|exact (lg_text _ L2 _ _ I)].
      + intros q I. rewrite !loaded_app in I. cbn [loaded flat_map app] in I. destruct I as [I|I]; [apply SP; auto|].
        apply in_app_iff in I as [I|I]; [exact (lg_sound _ L1 _ I)|exact (lg_sound _ L2 _ I)].
      + intros q r I Q. rewrite !loaded_app in *. cbn [loaded flat_map app] in I. apply in_app_iff. right. apply in_app_iff.
        destruct I as [I|I]; [subst q; left; exact (RQ r Q)|].
        apply in_app_iff in I as [I|I]; [left; exact (lg_required _ L1 _ _ I Q)|right; exact (lg_required _ L2 _ _ I Q)].
      + intros q r I Q. rewrite !loaded_app, !skipped_app in *. cbn [loaded flat_map app] in I. rewrite !in_app_iff.
        destruct I as [I|I]; [subst q; destruct (OQ r Q); tauto|].
        apply in_app_iff in I as [I|I]; [destruct (lg_optional _ L1 _ _ I Q)|destruct (lg_optional _ L2 _ _ I Q)]; tauto.
    - split; [left; reflexivity|]. exact (reads_file _ _ _ _ _ _ _ _ _ F P I1 I2 RD1 RD2).
    - intros q I. rewrite !loaded_app, !skipped_app in *. cbn [loaded skipped flat_map app] in I |- *.
      assert (I' : q = p \/ In q (loaded log1 ++ skipped log1) \/ In q (loaded log2 ++ skipped log2)).
      { destruct I as [I|I]; [auto|]. rewrite !in_app_iff in *. tauto. }
      destruct I' as [->|[I'|I']]; [left; reflexivity| |].
      + right. destruct (C1 _ I') as [[n [J1 ->]]|[r [J1 J2]]].
        * exists p. split; [left; reflexivity|]. left. exists d, l1, n. auto.
        * exists r. split; [|exact J2]. right. apply in_app_iff. auto.
      + right. destruct (C2 _ I') as [[n [J1 ->]]|[r [J1 J2]]].
        * exists p. split; [left; reflexivity|]. right. exists d, l2, n. auto.
        * exists r. split; [|exact J2]. right. apply in_app_iff. auto.
    - intros fs' A c4. rewrite !agrees_app in A. destruct A as [A0 [A1 A2]]. cbn [dp_include].
      rewrite (proj1 A0 p x (or_introl eq_refl)), P, U, UT, I1, I2.
      destruct (R1 fs' A1 c4) as [c5 ->]. destruct (R2 fs' A2 c5) as [c6 ->]. rewrite H3, T3. eauto.
    - intros q I. rewrite !loaded_app in I. cbn [loaded flat_map app] in I. apply update_key.
      destruct I as [<-|I]; [left; apply zput_in; auto|]. right.
      apply in_app_iff in I as [I|I]; [|exact (M2 _ I)].
      pose proof (each_contents (dp_include k e fs) false p h (include_contents k) l2 h2 c2 t2) as G.
      rewrite E2 in G. apply G, M1, I.
    - intros q I. rewrite !loaded_app, !skipped_app in *. cbn [loaded skipped flat_map app] in I |- *.
      apply in_app_iff in I as [I|I].
      + destruct (S1 q I) as [[J _]|(r & J1 & J2)]; [discriminate|]. exists r. split; [|exact J2]. right. apply in_app_iff. auto.
      + destruct (S2 q I) as [(_ & n & J1 & ->)|(r & J1 & J2)].
        * exists p. split; [left; reflexivity|]. exists d, l2, n. auto.
        * exists r. split; [|exact J2]. right. apply in_app_iff. auto.
  Qed.

  (** ** Cycles *)

  Definition keys_in (h h' : hashes) : Prop := forall q, In q (map fst h) -> In q (map fst h').

  Lemma keys_in_update : forall (h : hashes) l, keys_in h (dict_update h l).
  Proof. intros h l q I. destruct (update_keys l h) as [r ->]. apply in_app_iff. auto. Qed.

  Lemma include_keys : forall k h c p t ok h' c' t', dp_include k e fs h c p t = Result ok h' c' t' -> keys_in h h'.
  Proof.
    intros [|k] h c p t ok h' c' t' E; [discriminate|]. destruct ok.
    - destruct (include_inv _ _ _ _ _ _ _ _ E) as (x & d & t1 & l1 & h2 & c2 & t2 & l2 & h3 & c3 & t3 &
        F & P & U & UT & I1 & I2 & E1 & E2 & -> & -> & ->). apply keys_in_update.
    - destruct (include_false _ _ _ _ _ _ _ _ E) as [-> _]. intros q I. exact I.
  Qed.

  Lemma each_calls : forall k required p h0 l h c t h' c' t',
    include_each (dp_include k e fs) e required p h0 l h c t = LNext h' c' t' ->
    keys_in h h' /\
    forall n, In n l -> ~ In (resolve e p n) (map fst h0)
      /\ (required = true -> exists h1 c1 t1 h2 c2 t2,
            dp_include k e fs h1 c1 (resolve e p n) t1 = Result true h2 c2 t2 /\ keys_in h h1).
  Proof.
    intros k required p h0. induction l as [|n l IH]; intros h c t h' c' t' E; simpl in E.
    - injection E as <- <- <-. split; [intros q I; exact I|intros n []].
    - destruct (has (resolve e p n) h0) eqn:H0; [discriminate|].
      assert (NI : ~ In (resolve e p n) (map fst h0)) by (rewrite <- has_in, H0; discriminate).
      destruct (dp_include k e fs h c (resolve e p n) t) as [| |ok h1 c1 t1] eqn:R; [discriminate..|].
      pose proof (include_keys _ _ _ _ _ _ _ _ _ R) as K1.
      assert (GO : forall hh, keys_in h hh ->
        include_each (dp_include k e fs) e required p h0 l hh c1 t1 = LNext h' c' t' ->
        (required = true -> ok = true) ->
        keys_in h h' /\ forall m, In m (n :: l) -> ~ In (resolve e p m) (map fst h0)
          /\ (required = true -> exists h1 c1 t1 h2 c2 t2,
            dp_include k e fs h1 c1 (resolve e p m) t1 = Result true h2 c2 t2 /\ keys_in h h1)).
      { intros hh KH EE RO. destruct (IH _ _ _ _ _ _ EE) as [A B]. split; [intros q I; apply A, KH, I|].
        intros m [<-|I].
        - split; [exact NI|]. intros RQ. rewrite (RO RQ) in R. exists h, c, t, h1, c1, t1. split; [exact R|intros q J; exact J].
        - destruct (B m I) as [B1 B2]. split; [exact B1|]. intros RQ.
          destruct (B2 RQ) as (g & cc & tt & g2 & cc2 & tt2 & X & Y). exists g, cc, tt, g2, cc2, tt2. split; [exact X|].
          intros q J. apply Y, KH, J. }
      destruct ok.
      + apply (GO h1 K1 E). reflexivity.
      + destruct required; [discriminate|]. apply (GO (dict_put Z.eqb (resolve e p n) None h1)); [|exact E|discriminate].
        intros q I. apply zput_in. right. apply K1, I.
  Qed.

  Definition loads (h : hashes) (p : Z) : Prop :=
    exists k c t h' c' t', dp_include k e fs h c p t = Result true h' c' t'.

  Lemma loads_required : forall h p q, loads h p -> requires e fs p q ->
    ~ In q (map fst h) /\ exists h', loads h' q /\ keys_in h h' /\ In p (map fst h').
  Proof.
    intros h p q (k & c & t & h' & c' & t' & E) (d' & l & n & B' & J & M & ->).
    destruct k as [|k]; [discriminate|].
    destruct (include_inv _ _ _ _ _ _ _ _ E) as (x & d & t1 & l1 & h2 & c2 & t2 & l2 & h3 & c3 & t3 &
      F & P & U & UT & I1 & I2 & E1 & E2 & -> & -> & ->).
    assert (B : body e fs p d) by (exists x; auto).
    rewrite <- (body_fun _ _ _ B B') in J. rewrite I1 in J. injection J as <-.
    destruct (each_calls _ _ _ _ _ _ _ _ _ _ _ E1) as [_ C]. destruct (C n M) as [N R]. split; [exact N|].
    destruct (R eq_refl) as (h1 & cc & tt & hh & cc' & tt' & X & Y). exists h1. split; [|split].
    - exists k, cc, tt, hh, cc', tt'. exact X.
    - intros r I. apply Y, zput_in. right. exact I.
    - apply Y, zput_in. left. reflexivity.
  Qed.

  Lemma loads_needs : forall p q, needs e fs p q -> forall h, loads h p -> forall r, In r (map fst h) -> q <> r.
  Proof.
    induction 1 as [p q R|p q r R _ IH]; intros h L s I; destruct (loads_required _ _ _ L R) as (N & h' & L' & K & _).
    - intros ->. contradiction.
    - apply (IH h' L'). apply K, I.
  Qed.

  Lemma needs_trans : forall p q r, needs e fs p q -> needs e fs q r -> needs e fs p r.
  Proof. induction 1 as [p q R|p q s R _ IH]; intros N; [exact (needs_more _ _ _ _ _ R N)|]. exact (needs_more _ _ _ _ _ R (IH N)). Qed.

  Theorem no_cycles : forall h p, loads h p -> ~ needs e fs p p.
  Proof.
    intros h p L N. inversion N as [a b R|a b c R N']; subst.
    - destruct (loads_required _ _ _ L R) as (_ & h' & L' & _ & I).
      destruct (loads_required _ _ _ L' R) as (NI & _). contradiction.
    - destruct (loads_required _ _ _ L R) as (_ & h' & L' & _ & I).
      exact (loads_needs _ _ N' _ L' _ I eq_refl).
  Qed.

  Lemma loads_reach : forall p q, needs e fs p q -> forall h, loads h p -> exists h', loads h' q.
  Proof.
    induction 1 as [p q R|p q r R _ IH]; intros h L; destruct (loads_required _ _ _ L R) as (_ & h' & L' & _); eauto.
  Qed.

  (** ** Termination *)

  Section Finite.
    Variable files : list Z.
    Hypothesis all_files : forall p, isfile fs p = true -> In p files.

    Definition unseen (h : hashes) : nat := length (filter (fun f => negb (has f h)) files).
    Definition measure (h : hashes) (p : Z) : nat := (2 * unseen h + if has p h then 1 else 0)%nat.

    Lemma filter_le : forall (f g : Z -> bool) l, (forall x, f x = true -> g x = true) ->
      (length (filter f l) <= length (filter g l))%nat.
    Proof.
      intros f g l H. induction l as [|x l IH]; [apply le_n|]. simpl.
      destruct (f x) eqn:A; [rewrite (H x A); simpl; lia|]. destruct (g x); simpl; lia.
    Qed.
    Lemma filter_lt : forall (f g : Z -> bool) l x, (forall x, f x = true -> g x = true) -> In x l ->
      f x = false -> g x = true -> (length (filter f l) < length (filter g l))%nat.
    Proof.
      intros f g l x H I A B. induction l as [|y l IH]; [destruct I|]. simpl. pose proof (filter_le f g l H) as LE.
      destruct I as [->|I].
      - rewrite A, B. simpl. lia.
      - specialize (IH I). destruct (f y) eqn:C; [rewrite (H y C); simpl; lia|]. destruct (g y); simpl; lia.
    Qed.

    Lemma has_mono : forall (h h' : hashes) q, keys_in h h' -> has q h = true -> has q h' = true.
    Proof. intros h h' q K. rewrite !has_in. apply K. Qed.

    Lemma unseen_le : forall h h', keys_in h h' -> (unseen h' <= unseen h)%nat.
    Proof.
      intros h h' K. apply filter_le. intros x. rewrite !negb_true_iff. intros N.
      destruct (has x h) eqn:X; [|reflexivity]. rewrite (has_mono _ _ _ K X) in N. discriminate.
    Qed.
    Lemma unseen_lt : forall h h' q, keys_in h h' -> In q files -> has q h = false -> has q h' = true ->
      (unseen h' < unseen h)%nat.
    Proof.
      intros h h' q K I A B. apply (filter_lt _ _ _ q); [|exact I|rewrite B; reflexivity|rewrite A; reflexivity].
      intros x. rewrite !negb_true_iff. intros N.
      destruct (has x h) eqn:X; [|reflexivity]. rewrite (has_mono _ _ _ K X) in N. discriminate.
    Qed.

    Lemma not_file : forall k h c p t, isfile fs p = false -> dp_include (S k) e fs h c p t = Result false h c t.
    Proof. intros k h c p t F. unfold isfile in F. cbn [dp_include]. destruct (fs p); [reflexivity|discriminate..]. Qed.

    (** A call made from within a call on a file has a smaller measure. *)
    Lemma measure_drop : forall h p hh q, In p files -> has q h = false -> keys_in h hh -> has p hh = true ->
      In q files -> (measure hh q < measure h p)%nat.
    Proof.
      intros h p hh q Ip Nq K P Iq. unfold measure.
      destruct (has p h) eqn:X.
      - destruct (has q hh) eqn:Y.
        + pose proof (unseen_lt h hh q K Iq Nq Y). lia.
        + pose proof (unseen_le h hh K). lia.
      - pose proof (unseen_lt h hh p K Ip X P). destruct (has q hh); lia.
    Qed.

    Lemma each_terminates : forall k required p h0,
      (forall h c q t, (measure h q < k)%nat -> dp_include k e fs h c q t <> OutOfFuel) ->
      In p files -> (measure h0 p <= k)%nat -> (0 < k)%nat ->
      forall l h c t, keys_in h0 h -> has p h = true ->
        include_each (dp_include k e fs) e required p h0 l h c t <> LOutOfFuel.
    Proof.
      intros k required p h0 IH Ip M K0. induction l as [|n l IHl]; intros h c t K P; simpl; [discriminate|].
      destruct (has (resolve e p n) h0) eqn:N0; [discriminate|].
      assert (R : dp_include k e fs h c (resolve e p n) t <> OutOfFuel).
      { destruct (isfile fs (resolve e p n)) eqn:F.
        - apply IH. pose proof (measure_drop h0 p h _ Ip N0 K P (all_files _ F)). lia.
        - destruct k as [|k']; [lia|]. rewrite not_file by exact F. discriminate. }
      destruct (dp_include k e fs h c (resolve e p n) t) as [| |ok h1 c1 t1] eqn:E; [congruence|discriminate|].
      pose proof (include_keys _ _ _ _ _ _ _ _ _ E) as K1.
      destruct ok.
      - apply IHl; [intros q I; apply K1, K, I|exact (has_mono _ _ _ K1 P)].
      - destruct required; [discriminate|]. apply IHl.
        + intros q I. apply zput_in. right. apply K1, K, I.
        + apply has_in, zput_in. right. apply K1, has_in, P.
    Qed.

    Theorem include_terminates : forall k h c p t, (measure h p < k)%nat -> dp_include k e fs h c p t <> OutOfFuel.
    Proof.
      induction k as [|k IH]; intros h c p t M; [lia|].
      destruct (isfile fs p) eqn:F; [|rewrite not_file by exact F; discriminate].
      pose proof (all_files _ F) as Ip. unfold isfile in F. cbn [dp_include].
      destruct (fs p) as [| |x]; [discriminate F|discriminate|].
      destruct (parse e x) as [| |d]; [discriminate..|].
      destruct (pa_unknown d); [discriminate|]. destruct (update_tops t d) as [t1|]; [|discriminate].
      destruct (pa_include d) as [l1|]; [|discriminate].
      assert (KP : keys_in h (dict_put Z.eqb p (Some x) h)) by (intros q I; apply zput_in; auto).
      assert (HP : has p (dict_put Z.eqb p (Some x) h) = true) by (apply has_in, zput_in; auto).
      assert (K0 : (0 < k)%nat).
      { assert (0 < measure h p)%nat; [|lia]. unfold measure. destruct (has p h) eqn:X; [lia|].
        pose proof (unseen_lt h _ p KP Ip X HP). lia. }
      pose proof (each_terminates k true p h IH Ip ltac:(lia) K0 l1 (dict_put Z.eqb p (Some x) h) c t1 KP HP) as N1.
      destruct (include_each (dp_include k e fs) e true p h l1 (dict_put Z.eqb p (Some x) h) c t1) as [| | |h2 c2 t2] eqn:E1;
        [congruence|discriminate..|].
      destruct (pa_optional d) as [l2|]; [|discriminate].
      destruct (each_calls _ _ _ _ _ _ _ _ _ _ _ E1) as [K1 _].
      assert (K2 : keys_in h h2) by (intros q I; apply K1, KP, I).
      pose proof (each_terminates k false p h IH Ip ltac:(lia) K0 l2 h2 c2 t2 K2 (has_mono _ _ _ K1 HP)) as N2.
      destruct (include_each (dp_include k e fs) e false p h l2 h2 c2 t2); [congruence|discriminate..].
    Qed.
  End Finite.
End Load.

(** More fuel changes nothing. *)
Lemma each_fuel : forall e fs k k' required p h0,
  (forall h c q t, dp_include k e fs h c q t <> OutOfFuel -> dp_include k' e fs h c q t = dp_include k e fs h c q t) ->
  forall l h c t, include_each (dp_include k e fs) e required p h0 l h c t <> LOutOfFuel ->
  include_each (dp_include k' e fs) e required p h0 l h c t = include_each (dp_include k e fs) e required p h0 l h c t.
Proof.
  intros e fs k k' required p h0 H. induction l as [|n l IH]; intros h c t N; simpl in *; [reflexivity|].
  destruct (has (resolve e p n) h0); [reflexivity|].
  rewrite H by (intros X; rewrite X in N; congruence).
  destruct (dp_include k e fs h c (resolve e p n) t) as [| |ok h1 c1 t1]; [reflexivity..|].
  destruct ok; [apply IH, N|]. destruct required; [reflexivity|]. apply IH, N.
Qed.

Lemma include_fuel : forall e fs k h c p t, dp_include k e fs h c p t <> OutOfFuel ->
  forall k', (k <= k')%nat -> dp_include k' e fs h c p t = dp_include k e fs h c p t.
Proof.
  intros e fs. induction k as [|k IH]; intros h c p t N k' L; [elim N; reflexivity|].
  destruct k' as [|k']; [lia|]. apply le_S_n in L.
  assert (H : forall h c q t, dp_include k e fs h c q t <> OutOfFuel -> dp_include k' e fs h c q t = dp_include k e fs h c q t)
    by (intros; apply IH; assumption).
  cbn [dp_include] in *. destruct (fs p) as [| |x]; [reflexivity..|].
  destruct (parse e x) as [| |d]; [reflexivity..|]. destruct (pa_unknown d); [reflexivity|].
  destruct (update_tops t d) as [t1|]; [|reflexivity]. destruct (pa_include d) as [l1|]; [|reflexivity].
  rewrite (each_fuel e fs k k' true p h H) by (intros X; rewrite X in N; congruence).
  destruct (include_each (dp_include k e fs) e true p h l1 (dict_put Z.eqb p (Some x) h) c t1); [reflexivity..|].
  destruct (pa_optional d) as [l2|]; [|reflexivity].
  rewrite (each_fuel e fs k k' false p h H) by (intros X; rewrite X in N; congruence). reflexivity.
Qed.

(** ** Changes *)

Lemma hashes_changed_false : forall fs h, NoDup (map fst h) ->
  hashes_changed fs h = PyVal false <->
  (forall p x, dict_get Z.eqb p h = Some x -> fs p = match x with Some y => Text y | None => Missing end).
Proof.
  intros fs. induction h as [|[p x] h IH]; intros N; simpl; [split; [discriminate|reflexivity]|].
  inversion N as [|? ? N1 N2]; subst.
  assert (REST : fs p = match x with Some y => Text y | None => Missing end ->
    (hashes_changed fs h = PyVal false <->
     (forall q z, (if q =? p then Some x else dict_get Z.eqb q h) = Some z ->
        fs q = match z with Some y => Text y | None => Missing end))).
  { intros FP. rewrite IH by exact N2. split.
    - intros A q z. destruct (q =? p) eqn:E; [|apply A]. intros X. injection X as <-. apply Z.eqb_eq in E as ->. exact FP.
    - intros A q z G. apply A. destruct (q =? p) eqn:E; [|exact G]. apply Z.eqb_eq in E as ->.
      elim N1. apply has_in. unfold has. rewrite G. reflexivity. }
  assert (BAD : forall r, r <> PyVal false -> fs p <> match x with Some y => Text y | None => Missing end ->
    (r = PyVal false <-> (forall q z, (if q =? p then Some x else dict_get Z.eqb q h) = Some z ->
        fs q = match z with Some y => Text y | None => Missing end))).
  { intros r R F. split; [contradiction|]. intros A. elim F. apply A. rewrite Z.eqb_refl. reflexivity. }
  destruct (fs p) as [| |y] eqn:F; destruct x as [z|].
  - apply BAD; discriminate.
  - apply REST. reflexivity.
  - apply BAD; discriminate.
  - apply BAD; discriminate.
  - destruct (y =? z) eqn:E.
    + apply Z.eqb_eq in E as ->. apply REST. reflexivity.
    + apply BAD; [discriminate|]. intros X. injection X as ->. rewrite Z.eqb_refl in E. discriminate.
  - apply BAD; discriminate.
Qed.

Lemma write_files_get : forall c fs q,
  write_files c fs q = match written q c with Some x => Text x | None => fs q end.
Proof.
  unfold write_files, written.
  assert (GEN : forall c fs q acc, (match acc with Some x => fs q = Text x | None => True end) ->
    forall base, (acc = None -> fs q = base) ->
    fold_left (fun fs px => fun q => if q =? fst px then Text (snd px) else fs q) c fs q
    = match fold_left (fun acc (kv : Z * Z) => if fst kv =? q then Some (snd kv) else acc) c acc with
      | Some x => Text x | None => base end).
  { induction c as [|[p x] c IH]; intros fs q acc A base B; simpl.
    - destruct acc; [exact A|apply B; reflexivity].
    - apply IH.
      + destruct (p =? q) eqn:E; rewrite (Z.eqb_sym q p), E; [reflexivity|exact A].
      + destruct (p =? q) eqn:E; [discriminate|]. rewrite (Z.eqb_sym q p), E. exact B. }
  intros c fs q. apply GEN; [exact I|reflexivity].
Qed.
