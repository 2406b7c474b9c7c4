(** * Boolean options, positional arguments, and first-time setup (telemetry).
    src/lib.rs:218-264 (flags), 511-613 (first-time setup, telemetry), 665-703 (start-up);
    crates/oro-config/src/lib.rs:22-110 (negated options, layering). *)
From Verif Require Import Base Types Kdl StdPath CliModel AuthModel.
Open Scope string_scope.
Open Scope list_scope.

(** ** src/lib.rs:511-583 [first_time_setup] *)
(** the configuration file on disk: not there; there but not readable as text; or text, which the KDL parser accepts or not *)
Inductive cfile := FMissing | FUnreadable | FText (d : option kdoc).
(** kdl (external) KdlDocument::query("options > NAME"): some node [options] has a child NAME *)
Definition opt_query (name : string) (d : kdoc) : bool :=
  existsb (fun n => String.eqb (k_name n) "options" && match k_children n with Some c => is_some (kget name c) | None => false end) d.
(** lib.rs:550-554, 574-578: overwrite the first argument of a node, or push one *)
Fixpoint arg0_entries (v : kval) (l : list (option string * kval)) : list (option string * kval) :=
  match l with [] => [(None, v)] | (None, _) :: t => (None, v) :: t | e :: t => e :: arg0_entries v t end.
Definition set_arg0 (v : kval) (n : knode) : knode := match n with KNode s e c => KNode s (arg0_entries v e) c end.
(** lib.rs:534-554 (telemetry) and 557-579 (first-time): [exists_already] is the query; the node is pushed on the first [options]
    node, whose children are then [unwrap]ped *)
Definition write_option (name : string) (b : bool) (exists_already : bool) (d : kdoc) : res err kdoc :=
  let d := if exists_already then d
           else kupd "options" (fun o => map_children (fun c => c ++ [KNode name [(None, KBool b)] None]) (ensure_children o)) d in
  match obind (kget "options" d) k_children with
  | Some _ => Ok (kupd "options" (map_children (kupd name (set_arg0 (KBool b)))) d)
  | None => Panic
  end.
(** [answer]: what the prompt returns, [None] if it is interrupted. Result: what is written to the file, and the new value of
    [self.telemetry] if it is changed. Simplification: creating the directory and writing the file succeed. *)
Definition first_time_setup (first_time ci tty : bool) (answer : option bool) (file : cfile) : res err (option kdoc * option bool) :=
  if first_time && negb ci then
    match (match file with FText d => d | _ => Some [] end) with
    | None => Err EParse
    | Some d =>
        let telemetry_exists := opt_query "telemetry" d in
        let d := if is_some (kget "options" d) then d else d ++ [KNode "options" [] None] in
        let! r := (if tty then
                     match answer with
                     | None => Err EIo
                     | Some b => let! d := write_option "telemetry" b telemetry_exists d in Ok (d, Some b)
                     end
                   else Ok (d, None)) in
        let! d := write_option "first-time" false (opt_query "first-time" (fst r)) (fst r) in
        Ok (Some d, snd r)
    end
  else Ok (None, None).

(** ** reading a command line, with positional arguments and the terminator "--": clap 4.4 (external). Simplification: no short
    options, and no "--name=value". Result: the options, the positional arguments, and whether "--" was seen. *)
Definition dashed' (s : string) : bool := match s with String c _ => Ascii.eqb c "-" | _ => false end.
Fixpoint cread (takes : string -> bool) (toks : list string) : option (list (string * option string) * list string * bool) :=
  match toks with
  | [] => Some ([], [], false)
  | t :: r =>
      if String.eqb t "--" then Some ([], r, true)
      else match strip "--" t with
           | None => if dashed' t then None else option_map (fun '(o, p, e) => (o, t :: p, e)) (cread takes r)
           | Some n =>
               if takes n then
                 match r with
                 | v :: r' => if dashed' v then None else option_map (fun '(o, p, e) => ((n, Some v) :: o, p, e)) (cread takes r')
                 | [] => None
                 end
               else option_map (fun '(o, p, e) => ((n, None) :: o, p, e)) (cread takes r)
           end
  end.
(** the last mention of a flag or of its negation decides: with_negations (oro-config lib.rs:22-51) adds, for a flag spelled --x,
    a hidden --no-x, and for a flag spelled --no-x a hidden --x, each overriding the other (clap's [overrides_with]) *)
Definition flagged (x : string) (l : list (string * option string)) : option bool :=
  fold_left (fun acc e => if String.eqb (fst e) x then Some true else if String.eqb (fst e) ("no-" ++ x) then Some false else acc) l None.

(** ** one start of the program: src/lib.rs:665-703 [load], up to [execute] *)
Record start := mkStart {
  s_args : list string;         (* the command line *)
  s_order : list string;        (* the long options, in the order the HashSet iterates *)
  s_default : list (string * string);
  s_env : list (string * string);
  s_project : option kdoc;      (* <root>/oro.kdl *)
  s_ci : bool;                  (* is_ci::cached() *)
  s_tty : bool;                 (* stdout is a terminal *)
  s_answer : option bool;       (* what the user answers if asked *)
  s_dsn : bool;                 (* a Sentry DSN: --sentry-dsn, or OROGENE_SENTRY_DSN when orogene was compiled *)
}.
Record started := mkStarted { d_file : cfile; d_asked : bool; d_sent : bool }.
Section Start.
  Variable zshow : Z -> string.
  Variable takes : string -> bool.
  (** flags spelled --no-x, which are on by default: value_source is CommandLine if the last mention is --no-x; the others: if
      the option was mentioned, and not by its negation last *)
  Variable default_on : string -> bool.
  Definition given (vals : list (string * option string)) (id : string) : bool :=
    if takes (dashes id) then existsb (fun e => String.eqb (fst e) (dashes id)) vals
    else match flagged (dashes id) vals with Some b => Bool.eqb b (negb (default_on (dashes id))) | None => false end.
  (** src/lib.rs:671-680, for the user's configuration file [file] ([build_config] ignores a file it cannot read, and fails on one
      it cannot parse) *)
  Definition final_args (s : start) (file : cfile) : option (list (string * option string) * list string * bool) :=
    match file with
    | FText None => None
    | _ =>
        match cread takes (s_args s) with
        | None => None
        | Some (vals, _, _) =>
            let global := match file with FText d => d | _ => None end in
            cread takes (layered zshow (given vals) (load_config (mkSrc (s_default s) global (s_env s) (s_project s))) (s_order s) (s_args s))
        end
    end.
  Definition flag_on (x : string) (vals : list (string * option string)) : bool :=
    match flagged x vals with Some b => b | None => default_on x end.
  (** [None]: the program stops with an error or a panic before [execute] *)
  Definition run_start (s : start) (file : cfile) : option started :=
    match final_args s file with
    | None => None
    | Some (vals, _, _) =>
        match first_time_setup (flag_on "first-time" vals) (s_ci s) (s_tty s) (s_answer s) file with
        | Ok (w, t) =>
            let telemetry := match t with Some b => b | None => flag_on "telemetry" vals end in
            Some (mkStarted (match w with Some d => FText (Some d) | None => file end)
                            (flag_on "first-time" vals && negb (s_ci s) && s_tty s)
                            (telemetry && s_dsn s))
        | _ => None
        end
    end.
  (** several starts, one after the other; what each did *)
  Fixpoint run_starts (l : list start) (file : cfile) : list (option started) :=
    match l with
    | [] => []
    | s :: t => let r := run_start s file in r :: run_starts t (match r with Some d => d_file d | None => file end)
    end.
End Start.
