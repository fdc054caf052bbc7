(** * Loading configuration files, includes, and noticing changes

    Models /repo/faucet/config_parser_util.py (read_config, dp_include,
    config_changed) and the parts of /repo/faucet/valves_manager.py that use
    them (ConfigWatcher, parse_configs, revert_config).

    Paths, file contents, names and values are numbers.  What YAML makes of a
    content, and what path an include names, are given by an environment that is
    left open ([env]); a hash is the content itself, that is, SHA256 is assumed
    free of collisions. *)
From Coq Require Import ZArith List Bool.
From Verif Require Import PyBase PacketModel.
Import ListNotations.
Open Scope Z_scope.

(** A top level section of a file, [acls] for instance: a dictionary, or
    something [dict.update] rejects. *)
Inductive section := Entries (l : list (Z * Z)) | BadSection.

(** The value of an include directive: a list of names, or something else. *)
Inductive includes := Names (l : list Z) | BadNames.

(** A file's top level dictionary: whether it has keys other than the five
    sections, "include", "include-optional" and "version"; its sections (an
    absent one is [Entries []]); its include directives. *)
Record parsed := mkParsed {
  pa_version : bool;    (* "version" is absent or 2 *)
  pa_unknown : bool;
  pa_section : Z -> section;
  pa_include : includes;
  pa_optional : includes
}.

(** What YAML makes of a content: nothing (an error, or an empty document),
    something that is not a dictionary, a dictionary. *)
Inductive yaml := YNothing | YOther | YDict (p : parsed).

(** config_parser_util.py 92-96 (dp_config_path): the path an include names in a file. *)
Record env := mkEnv {
  parse : Z -> yaml;
  resolve : Z -> Z -> Z
}.

(** Something at a path: nothing (or no regular file), a file that cannot be
    read, a file with a content. *)
Inductive file := Missing | Unreadable | Text (content : Z).
Definition fsys := Z -> file.

(** os.path.isfile *)
Definition isfile (fs : fsys) (p : Z) : bool := match fs p with Missing => false | _ => true end.

(** config_parser.py 35: V2_TOP_CONFS: acls, dps, meters, routers, vlans *)
Definition TOP_CONFS : list Z := [0; 1; 2; 3; 4].

(** Python dictionaries: hashes (None: an optional include that was not loaded),
    contents, and a dictionary for each section. *)
Definition hashes := list (Z * option Z).
Definition contents := list (Z * Z).
Definition tops := list (Z * list (Z * Z)).

(** d.update(e) *)
Definition dict_update {V} (d e : list (Z * V)) : list (Z * V) :=
  fold_left (fun d kv => dict_put Z.eqb (fst kv) (snd kv) d) e d.

(** [k in d] *)
Definition has {V} (k : Z) (d : list (Z * V)) : bool :=
  match dict_get Z.eqb k d with Some _ => true | None => false end.

(** config_parser_util.py 132-141: each section updated with the file's;
    [None]: a section is not a dictionary. *)
Fixpoint update_tops (t : tops) (p : parsed) : option tops :=
  match t with
  | [] => Some []
  | (n, d) :: r =>
      match pa_section p n with
      | BadSection => None
      | Entries l =>
          match update_tops r p with
          | None => None
          | Some r' => Some ((n, dict_update d l) :: r')
          end
      end
  end.

(** Lines 179-180: the caller's sections updated in the end. *)
Definition commit_tops (t new : tops) : tops :=
  map (fun nd => (fst nd, dict_update (snd nd) (match dict_get Z.eqb (fst nd) new with Some d => d | None => [] end))) t.

(** The outcome of dp_include: out of fuel (only in the model), an exception, or
    a boolean with the caller's three dictionaries as they are left. *)
Inductive outcome :=
| OutOfFuel
| Raised
| Result (ok : bool) (h : hashes) (c : contents) (t : tops).

(** The loop over one include directive: the call fails, or goes on. *)
Inductive loop :=
| LOutOfFuel
| LRaised
| LFailed (c : contents)
| LNext (h : hashes) (c : contents) (t : tops).

(** Lines 147-173, for one directive of the file [p].  [h0] is the dictionary of
    hashes the caller passed, [h] and [t] the updated copies; contents are
    written to the caller's dictionary. *)
Fixpoint include_each (rec : hashes -> contents -> Z -> tops -> outcome) (e : env)
    (required : bool) (p : Z) (h0 : hashes) (l : list Z) (h : hashes) (c : contents) (t : tops) : loop :=
  match l with
  | [] => LNext h c t
  | name :: rest =>
      let q := resolve e p name in
      if has q h0 then LFailed c
      else
        match rec h c q t with
        | OutOfFuel => LOutOfFuel
        | Raised => LRaised
        | Result true h' c' t' => include_each rec e required p h0 rest h' c' t'
        | Result false h' c' t' =>
            if required then LFailed c'
            else include_each rec e required p h0 rest (dict_put Z.eqb q None h') c' t'
        end
  end.

(** Lines 99-181 (dp_include).  A file that exists but is empty, unreadable or
    not YAML is not loaded; one that is not a dictionary raises AttributeError
    (line 119). *)
Fixpoint dp_include (fuel : nat) (e : env) (fs : fsys) (h : hashes) (c : contents) (p : Z) (t : tops) : outcome :=
  match fuel with
  | O => OutOfFuel
  | S k =>
      match fs p with
      | Missing => Result false h c t
      | Unreadable => Result false h c t
      | Text x =>
          match parse e x with
          | YNothing => Result false h c t
          | YOther => Raised
          | YDict d =>
              if pa_unknown d then Result false h c t
              else
                let h1 := dict_put Z.eqb p (Some x) h in
                let c1 := dict_put Z.eqb p x c in
                match update_tops t d with
                | None => Result false h c t
                | Some t1 =>
                    match pa_include d with
                    | BadNames => Result false h c t
                    | Names l1 =>
                        match include_each (dp_include k e fs) e true p h l1 h1 c t1 with
                        | LOutOfFuel => OutOfFuel
                        | LRaised => Raised
                        | LFailed c2 => Result false h c2 t
                        | LNext h2 c2 t2 =>
                            match pa_optional d with
                            | BadNames => Result false h c2 t
                            | Names l2 =>
                                match include_each (dp_include k e fs) e false p h l2 h2 c2 t2 with
                                | LOutOfFuel => OutOfFuel
                                | LRaised => Raised
                                | LFailed c3 => Result false h c3 t
                                | LNext h3 c3 t3 =>
                                    Result true (dict_update h h3) (dict_update c3 c1) (commit_tops t t3)
                                end
                            end
                        end
                    end
                end
          end
      end
  end.

(** config_parser.py 288-306 (_config_parser_v2): loading from nothing *)
Definition empty_tops : tops := map (fun n => (n, [])) TOP_CONFS.
Definition load (fuel : nat) (e : env) (fs : fsys) (p : Z) : outcome := dp_include fuel e fs [] [] p empty_tops.

(** Lines 184-211 (config_changed), for recorded hashes; opening a file that
    cannot be read raises. *)
Fixpoint hashes_changed (fs : fsys) (h : hashes) : pyres bool :=
  match h with
  | [] => PyVal false
  | (p, x) :: r =>
      match fs p, x with
      | Missing, None => hashes_changed fs r
      | Missing, Some _ => PyVal true
      | _, None => PyVal true
      | Unreadable, Some _ => PyRaise
      | Text y, Some x => if y =? x then hashes_changed fs r else PyVal true
      end
  end.
Definition config_changed (fs : fsys) (top new_top : option Z) (h : option hashes) : pyres bool :=
  match top, new_top with
  | Some a, Some b => if a =? b then match h with None => PyVal false | Some h => hashes_changed fs h end
                      else PyVal true
  | None, None => PyVal false
  | _, _ => PyVal true
  end.

(** ** The configuration in force: valves_manager.py 29-72, 228-282, 344-364 *)

(** ConfigWatcher (config_file, config_hashes) and MetaDPState (top_conf,
    last_good_config). *)
Record cwatch := mkWatch {
  w_file : option Z;
  w_hashes : option hashes;
  w_conf : option tops;
  w_good : contents
}.
Definition watch0 : cwatch := mkWatch None None None [].

(** valves_manager.py 66-72 (update) *)
Definition watch_update (w : cwatch) (f : Z) (h : option hashes) : cwatch :=
  match h with
  | None => mkWatch (Some f) (Some [(f, None)]) (w_conf w) (w_good w)
  | Some [] => mkWatch (Some f) (w_hashes w) (w_conf w) (w_good w)
  | Some h => mkWatch (Some f) (Some h) (w_conf w) (w_good w)
  end.

(** valves_manager.py 228-243 (revert_config); writing always works here. *)
Definition write_files (c : contents) (fs : fsys) : fsys :=
  fold_left (fun fs px => fun q => if q =? fst px then Text (snd px) else fs q) c fs.

(** config_parser.py 38-55 (dp_parser), up to the checks of the sections: [None]
    is InvalidConfigError.  The file is read twice, here at the same time. *)
Definition dp_parser (fuel : nat) (e : env) (accept : tops -> bool) (fs : fsys) (f : Z)
  : pyres (option (hashes * contents * tops)) :=
  match fs f with
  | Text x =>
      match parse e x with
      | YDict d =>
          if pa_version d then
            match load fuel e fs f with
            | OutOfFuel | Raised => PyRaise
            | Result ok h c t => PyVal (if ok && accept t then Some (h, c, t) else None)
            end
          else PyVal None
      | _ => PyVal None
      end
  | _ => PyVal None
  end.

(** valves_manager.py 245-282 (parse_configs) for a file given by its real path.
    [accept] is whether the rest of the parser accepts the sections; [revert] is
    config_auto_revert.  The file system that a revert leaves is returned, and
    whether the configuration was accepted. *)
Definition parse_configs (fuel : nat) (e : env) (accept : tops -> bool) (revert : bool) (fs : fsys) (w : cwatch) (f : Z)
  : pyres (cwatch * fsys * bool) :=
  match dp_parser fuel e accept fs f with
  | PyRaise => PyRaise
  | PyVal (Some (h, c, t)) =>
      let w' := watch_update w f (Some h) in
      PyVal (mkWatch (w_file w') (w_hashes w') (Some t) c, fs, true)
  | PyVal None => PyVal (watch_update w f None, if revert then write_files (w_good w) fs else fs, false)
  end.

(** valves_manager.py 344-364 (request_reload_configs) *)
Definition request_reload (fuel : nat) (e : env) (accept : tops -> bool) (revert : bool) (fs : fsys) (w : cwatch) (f : Z)
  : pyres (cwatch * fsys * option bool) :=
  match config_changed fs (w_file w) (Some f) (w_hashes w) with
  | PyRaise => PyRaise
  | PyVal false => PyVal (w, fs, None)
  | PyVal true =>
      match parse_configs fuel e accept revert fs w f with
      | PyRaise => PyRaise
      | PyVal (w', fs', b) => PyVal (w', fs', Some b)
      end
  end.
