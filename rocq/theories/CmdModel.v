(** * The commands apply, reapply, add, remove as sequences of phases, with failures and crashes at any point *)
From Verif Require Import Base Types StdPath JsonModel.
Open Scope list_scope.
Open Scope string_scope.

(** ** programs over the project's files *)
(** The files of the project: package.json and package-lock.kdl (None: no such file), and everything else ([rest]: node_modules, cache). *)
Record disk (N : Type) := mkDisk { d_json : option string; d_lock : option string; d_rest : N }.
Arguments mkDisk {N}. Arguments d_json {N}. Arguments d_lock {N}. Arguments d_rest {N}.

(** How a program ends: with a result, with an error (or panic: the process ends with its files as they are), or killed. *)
Inductive ending (A : Type) := Fin (a : A) | Failed | Crashed.
Arguments Fin {A}. Arguments Failed {A}. Arguments Crashed {A}.

Section Prog.
  Variable N : Type.
  (** [m d o d']: from [d], the program may end as [o] in [d']. *)
  Definition prog (A : Type) := disk N -> ending A -> disk N -> Prop.
  Definition ret {A} (a : A) : prog A := fun d o d' => o = Fin a /\ d' = d.
  Definition bind {A B} (m : prog A) (f : A -> prog B) : prog B := fun d o d' =>
    (exists a d1, m d (Fin a) d1 /\ f a d1 o d') \/ (m d Failed d' /\ o = Failed) \/ (m d Crashed d' /\ o = Crashed).
  Definition ends {A} (o : ending A) : Prop := o = Failed \/ o = Crashed.
  (** computations that write no file: a result of [R], an error or a crash *)
  Definition pure_ {A} (R : disk N -> A -> Prop) : prog A := fun d o d' => d' = d /\ ((exists a, o = Fin a /\ R d a) \/ ends o).
  (** a phase that writes only outside package.json and package-lock.kdl, anything at all if it does not finish.
      Simplification: lifecycle scripts do not write these two files. *)
  Definition phase (R : N -> N -> Prop) : prog unit := fun d o d' =>
    d_json d' = d_json d /\ d_lock d' = d_lock d /\ ((o = Fin tt /\ R (d_rest d) (d_rest d')) \/ ends o).
  (** async_std::fs::write: open with truncation, then write: a failure or crash leaves the old file or any prefix of the new one *)
  Definition torn (old : option string) (new : string) (s : option string) : Prop := s = old \/ exists p q, s = Some p /\ new = p ++ q.
  Definition write_json (new : string) : prog unit := fun d o d' =>
    d_lock d' = d_lock d /\ d_rest d' = d_rest d
    /\ ((o = Fin tt /\ d_json d' = Some new) \/ (ends o /\ torn (d_json d) new (d_json d'))).
  Definition write_lock (new : string) : prog unit := fun d o d' =>
    d_json d' = d_json d /\ d_rest d' = d_rest d
    /\ ((o = Fin tt /\ d_lock d' = Some new) \/ (ends o /\ torn (d_lock d) new (d_lock d'))).
End Prog.
Arguments ret {N A}. Arguments bind {N A B}. Arguments pure_ {N A}. Arguments phase {N}. Arguments write_json {N}. Arguments write_lock {N}.
Notation "'do' x <- m ; k" := (bind m (fun x => k)) (at level 200, x pattern, right associativity).

(** src/apply_args.rs:20-127, the options that matter here *)
Record opts := mkOpts { o_apply : bool; o_lockfile : bool; o_lockfile_only : bool; o_locked : bool; o_scripts : bool }.
Definition with_apply (o : opts) : opts := mkOpts true (o_lockfile o) (o_lockfile_only o) (o_locked o) (o_scripts o).
Definition unlocked (o : opts) : opts := mkOpts (o_apply o) (o_lockfile o) (o_lockfile_only o) false (o_scripts o).

Section Commands.
  Variables N T M : Type.
  (** serde_json::from_str for CorgiManifest, and for Value *)
  Variable manifest : string -> option M.
  Variable parse : string -> option json.
  (** NodeMaintainerOptions::resolve_manifest (ResolverModel), from the project's files, with --locked or not *)
  Variable resolves : bool -> M -> disk N -> T -> Prop.
  (** LinkerOptions prune/extract (HoistedModel), NodeMaintainer::rebuild (ScriptsModel) with scripts or bins only *)
  Variables prunes extracts : T -> N -> N -> Prop.
  Variable rebuilds : bool -> T -> N -> N -> Prop.
  Variable clears : N -> N -> Prop.
  (** Graph::to_kdl then Display (LockfileModel) *)
  Variable lock_text : T -> res err string.

  Notation prog := (prog N).
  (** file reads: an error if missing *)
  Definition read_json : prog string := pure_ (fun d s => d_json d = Some s).
  Definition of_option {A} (x : option A) : prog A := pure_ (fun _ a => x = Some a).
  Definition of_res {A} (x : res err A) : prog A := pure_ (fun _ a => x = Ok a).
  (** src/apply_args.rs:213-251 [resolve] *)
  Definition resolve_phase (o : opts) (m : M) : prog T := pure_ (resolves (o_locked o) m).
  (** maintainer.rs:504-512 [write_lockfile] *)
  Definition write_lockfile (t : T) : prog unit := do s <- of_res (lock_text t); write_lock s.
  (** src/apply_args.rs:127-168 [ApplyArgs::execute] *)
  Definition apply_args (o : opts) (m : M) : prog unit :=
    if negb (o_apply o) then ret tt
    else
      do t <- resolve_phase o m;
      do _ <- (if negb (o_lockfile_only o)
               then do _ <- phase (prunes t); do _ <- phase (extracts t); phase (rebuilds (o_scripts o) t)
               else ret tt);
      if o_lockfile o then write_lockfile t else ret tt.
  (** src/commands/apply.rs:16-31 *)
  Definition apply_cmd (o : opts) : prog unit :=
    do s <- read_json; do m <- of_option (manifest s); apply_args (with_apply o) m.
  (** src/commands/reapply.rs:16-58. Simplification: clearing a node_modules that does not exist is a phase that does nothing *)
  Definition reapply_cmd (o : opts) : prog unit :=
    do _ <- phase clears; do s <- read_json; do m <- of_option (manifest s); apply_args (with_apply o) m.
  (** add.rs:97-116 = remove.rs:50-68: install the edited manifest, then write it *)
  Definition apply_edited (o : opts) (f : formatted) : prog unit :=
    do m <- of_option (manifest (to_string_pretty f));
    do _ <- apply_args (unlocked o) m;
    write_json (to_string_pretty f).
  Definition set_value (v : json) (f : formatted) : formatted := mkF v (f_char f) (f_count f) (f_end f) (f_trail f).
  (** remove.rs:28-76 *)
  Definition remove_cmd (parse_spec : string -> res err pspec) (o : opts) (names : list string) : prog unit :=
    do s <- read_json; do f <- of_option (from_str parse s);
    do r <- of_res (remove_names parse_spec names (f_value f) 0);
    apply_edited o (set_value (fst r) f).
  (** add.rs:40-131 *)
  Definition add_cmd (resolve : string -> res err package) (parse_spec : string -> res err pspec) (vshow : version -> string) (gitshow : gitinfo -> string)
      (requested : pspec -> string) (prefix : string) (dev opt : bool) (o : opts) (specs : list string) : prog unit :=
    do s <- read_json; do f <- of_option (from_str parse s);
    do v <- of_res (add_specs resolve parse_spec vshow gitshow requested prefix dev opt specs (f_value f));
    apply_edited o (set_value v f).
End Commands.
Arguments read_json {N}. Arguments of_option {N A}. Arguments of_res {N A}.
Arguments apply_args {N T M}. Arguments apply_cmd {N T M}. Arguments reapply_cmd {N T M}. Arguments apply_edited {N T M}. Arguments remove_cmd {N T M}. Arguments add_cmd {N T M}.
