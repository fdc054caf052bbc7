(** * What loading a configuration with includes should do

    Stated on files, not on the loader: see IncludeModel.v for the types. *)
From Coq Require Import ZArith List Bool.
From Verif Require Import PyBase IncludeModel.
Import ListNotations.
Open Scope Z_scope.

Section Spec.
  Variable e : env.
  Variable fs : fsys.

  (** The file at [p] has the top level dictionary [d]. *)
  Definition body (p : Z) (d : parsed) : Prop := exists x, fs p = Text x /\ parse e x = YDict d.

  (** [q] is named by the include directive, or the include-optional directive, of [p]. *)
  Definition requires (p q : Z) : Prop :=
    exists d l n, body p d /\ pa_include d = Names l /\ In n l /\ q = resolve e p n.
  Definition may_include (p q : Z) : Prop :=
    exists d l n, body p d /\ pa_optional d = Names l /\ In n l /\ q = resolve e p n.

  (** One or more, or any number of, include directives lead from [p] to [q]. *)
  Inductive needs : Z -> Z -> Prop :=
  | needs_one : forall p q, requires p q -> needs p q
  | needs_more : forall p q r, requires p q -> needs q r -> needs p r.

  (** A file all of whose top level items are understood. *)
  Definition sound (p : Z) : Prop :=
    exists d, body p d /\ pa_unknown d = false
      /\ (forall s, In s TOP_CONFS -> pa_section d s <> BadSection)
      /\ pa_include d <> BadNames /\ pa_optional d <> BadNames.

  (** The value a dictionary literal gives to a key: the last one written. *)
  Definition written (k : Z) (l : list (Z * Z)) : option Z :=
    fold_left (fun acc kv => if fst kv =? k then Some (snd kv) else acc) l None.

  (** The value the file [p] gives to key [k] of section [s]. *)
  Definition gives (p s k : Z) : option Z :=
    match fs p with
    | Text x => match parse e x with
                | YDict d => match pa_section d s with Entries l => written k l | BadSection => None end
                | _ => None
                end
    | _ => None
    end.

  (** ... and the files of a list, read one after the other, starting from [old]. *)
  Definition read_all (files : list Z) (s k : Z) (old : option Z) : option Z :=
    fold_left (fun acc p => match gives p s k with Some v => Some v | None => acc end) files old.
End Spec.

(** The value of a key of a section of the loaded configuration. *)
Definition value (t : tops) (s k : Z) : option Z :=
  match dict_get Z.eqb s t with Some d => dict_get Z.eqb k d | None => None end.

(** What a load did, in order: loaded a file with some content, or skipped an
    optional include. *)
Inductive note := Loaded (p x : Z) | Skipped (p : Z).
Definition loaded (log : list note) : list Z :=
  flat_map (fun n => match n with Loaded p _ => [p] | Skipped _ => [] end) log.
Definition skipped (log : list note) : list Z :=
  flat_map (fun n => match n with Loaded _ _ => [] | Skipped p => [p] end) log.

(** The hash kept for a path: that of its last note. *)
Definition kept (log : list note) (p : Z) (old : option (option Z)) : option (option Z) :=
  fold_left (fun acc n => match n with
                          | Loaded q x => if q =? p then Some (Some x) else acc
                          | Skipped q => if q =? p then Some None else acc
                          end) log old.

(** Reading the file [p], and then the includes it names in the order they are
    written, the optional ones last; only an optional include can be skipped. *)
Inductive reads (e : env) (fs : fsys) : Z -> list note -> Prop :=
| reads_file : forall p x d l1 l2 a b, fs p = Text x -> parse e x = YDict d ->
    pa_include d = Names l1 -> pa_optional d = Names l2 ->
    reads_each e fs true p l1 a -> reads_each e fs false p l2 b -> reads e fs p (Loaded p x :: a ++ b)
with reads_each (e : env) (fs : fsys) : bool -> Z -> list Z -> list note -> Prop :=
| reads_none : forall r p, reads_each e fs r p [] []
| reads_next : forall r p n l a b, reads e fs (resolve e p n) a -> reads_each e fs r p l b ->
    reads_each e fs r p (n :: l) (a ++ b)
| reads_skip : forall p n l b, reads_each e fs false p l b -> reads_each e fs false p (n :: l) (Skipped (resolve e p n) :: b).

(** A log describes a load of [p] that left the hashes [h] and the sections [t]. *)
Record describes (e : env) (fs : fsys) (p : Z) (log : list note) (h : hashes) (t : tops) : Prop := {
  (** the order; the file asked for is loaded; what is loaded is in the files, and understood *)
  ds_order : reads e fs p log;
  ds_top : In p (loaded log);
  ds_text : forall q x, In (Loaded q x) log -> fs q = Text x;
  ds_sound : forall q, In q (loaded log) -> sound e fs q;
  (** includes are loaded, optional ones loaded or skipped *)
  ds_required : forall q r, In q (loaded log) -> requires e fs q r -> In r (loaded log);
  ds_optional : forall q r, In q (loaded log) -> may_include e fs q r -> In r (loaded log) \/ In r (skipped log);
  (** nothing else is *)
  ds_why : forall q, In q (loaded log) ->
    q = p \/ exists r, In r (loaded log) /\ (requires e fs r q \/ may_include e fs r q);
  ds_why_skipped : forall q, In q (skipped log) -> exists r, In r (loaded log) /\ may_include e fs r q;
  (** the configuration is that of the loaded files, the later ones overriding *)
  ds_value : forall s k, In s TOP_CONFS -> value t s k = read_all e fs (loaded log) s k None;
  (** the recorded hashes *)
  ds_hash : forall q, dict_get Z.eqb q h = kept log q None
}.
