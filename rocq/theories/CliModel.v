(** * The command line and configuration: src/lib.rs, crates/oro-config/src/lib.rs, crates/oro-config/src/kdl_source.rs *)
From Verif Require Import Base Types Kdl StdPath.
From Coq Require Import Permutation.
Open Scope string_scope.
Open Scope list_scope.

(** ** KEY=VALUE options *)
(** str::find(char) *)
Fixpoint sfind (ch : ascii) (s : string) : option nat :=
  match s with
  | EmptyString => None
  | String c t => if Ascii.eqb c ch then Some 0 else option_map S (sfind ch t)
  end.
Fixpoint stake (n : nat) (s : string) : string :=
  match n, s with S n', String c t => String c (stake n' t) | _, _ => "" end.
Fixpoint sdrop (n : nat) (s : string) : string :=
  match n, s with 0, _ => s | S n', String _ t => sdrop n' t | S _, EmptyString => "" end.
(** [&s[a..b]]: panics when the range is decreasing (the ends here are always positions of ASCII characters, so never
    inside a character and never past the end) *)
Definition slice (a b : nat) (s : string) : res err string :=
  if Nat.leb a b then Ok (stake (b - a) (sdrop a s)) else Panic.

(** src/lib.rs:798-813 [parse_key_value]; [pv] is FromStr of the value (Url, or String) *)
Definition parse_key_value {V} (pv : string -> option V) (s : string) : res err (string * V) :=
  match sfind "=" s with
  | None => Err EParse
  | Some pos =>
      let! k := slice 0 pos s in
      match pv (sdrop (S pos) s) with Some v => Ok (k, v) | None => Err EParse end
  end.
(** src/lib.rs:815-842 [parse_nested_key_value] at String *)
Definition parse_nested_key_value (s : string) : res err (string * string * string) :=
  match sfind "{" s with
  | None => Err EParse
  | Some o =>
      match sfind "}" s with
      | None => Err EParse
      | Some c =>
          match sfind "=" s with
          | None => Err EParse
          | Some e =>
              let! top := slice (S o) c s in
              let! key := slice (S c) e s in
              Ok (top, key, sdrop (S e) s)
          end
      end
  end.

(** ** configuration values *)
(** config::ValueKind (external crate config 0.13); floats are not modelled (see Kdl) *)
Inductive cval := CStr (s : string) | CInt (z : Z) | CBool (b : bool) | CNil | CTable (l : list (string * cval)) | CArray (l : list cval).

(** kdl_source.rs:40-52 [value_kind] *)
Definition value_kind (v : kval) : cval :=
  match v with KStr s => CStr s | KInt z => CInt z | KBool b => CBool b | KNull => CNil end.
(** collecting pairs into a map: a later value for a key replaces the earlier one *)
Definition to_map {A} (l : list (string * A)) : list (string * A) := fold_left (fun m e => sput (fst e) (snd e) m) l [].
(** kdl_source.rs:62-130 [node_value] *)
Fixpoint node_value (n : knode) : cval :=
  match n with
  | KNode _ entries children =>
      match flat_map (fun e => match fst e with None => [value_kind (snd e)] | Some _ => [] end) entries with
      | [v] => v
      | v :: v' :: t => CArray (v :: v' :: t)
      | [] =>
          match entries with
          | _ :: _ => CTable (to_map (flat_map (fun e => match fst e with Some k => [(k, value_kind (snd e))] | None => [] end) entries))
          | [] =>
              match children with
              | None => CBool true
              | Some ch =>
                  if forallb (fun m => String.eqb (k_name m) "-") ch
                  then CArray (map node_value ch)
                  else CTable (to_map (map (fun m => (k_name m, node_value m)) ch))
              end
          end
      end
  end.
(** kdl_source.rs:12-22 [KdlSource::collect]: the children of the [options] node *)
Definition collect (d : kdoc) : list (string * cval) :=
  match kget "options" d with
  | Some n => match k_children n with Some ch => to_map (map (fun m => (k_name m, node_value m)) ch) | None => [] end
  | None => []
  end.

(** config 0.13 (external), [Expression::Identifier(key).set(root, value)]: tables merge key by key, anything else replaces.
    Simplification: option names contain no '.' or '[' (which the crate would read as a path). *)
Fixpoint mset (v : cval) (k : string) (m : list (string * cval)) {struct v} : list (string * cval) :=
  match v with
  | CTable inc =>
      let start := match sget k m with Some (CTable t) => t | _ => [] end in
      sput k (CTable ((fix go (l : list (string * cval)) (t : list (string * cval)) :=
                         match l with [] => t | (k', v') :: r => go r (mset v' k' t) end) inc start)) m
  | _ => sput k v m
  end.
Definition add_layer (m layer : list (string * cval)) : list (string * cval) := fold_left (fun m e => mset (snd e) (fst e) m) layer m.

(** char::to_lowercase on ASCII *)
Definition low (c : ascii) : ascii :=
  let n := nat_of_ascii c in if andb (Nat.leb 65 n) (Nat.leb n 90) then ascii_of_nat (n + 32) else c.
Fixpoint lower (s : string) : string := match s with EmptyString => "" | String c t => String (low c) (lower t) end.
Fixpoint strip (p s : string) : option string :=
  match p, s with
  | EmptyString, _ => Some s
  | String a p', String b s' => if Ascii.eqb a b then strip p' s' else None
  | _, _ => None
  end.
(** config 0.13 (external), [Environment::with_prefix("oro_config")]: variables oro_config_X (any case), as strings *)
Definition env_layer (env : list (string * string)) : list (string * cval) :=
  flat_map (fun e => match strip "oro_config_" (lower (fst e)) with Some k => [(k, CStr (snd e))] | None => [] end) env.

(** what the files contain; [None] = no such file *)
Record sources := mkSrc {
  src_default : list (string * string);   (* set_default("root"), set_default("cache"): src/lib.rs:437-442 *)
  src_global : option kdoc;               (* the user's oro.kdl, or the file given with --config *)
  src_env : list (string * string);
  src_project : option kdoc;              (* <root>/oro.kdl; not read with --config: src/lib.rs:444-451 *)
}.
Definition file_layer (o : option kdoc) : list (string * cval) := match o with Some d => collect d | None => [] end.
(** crates/oro-config/src/lib.rs:164-183 [OroConfigOptions::load] *)
Definition load_config (s : sources) : list (string * cval) :=
  add_layer (add_layer (add_layer (add_layer [] (map (fun e => (fst e, CStr (snd e))) (src_default s)))
                                  (file_layer (src_global s)))
                       (env_layer (src_env s)))
            (file_layer (src_project s)).

(** ** from configuration to arguments *)
Section Show.
  (** external: Display of an i64 *)
  Variable zshow : Z -> string.
  (** config 0.13 (external) [Value::into_bool]: numbers and the words on/off/yes/no/1/0 count as booleans *)
  Definition get_bool (v : cval) : option bool :=
    match v with
    | CBool b => Some b
    | CInt z => Some (negb (Z.eqb z 0))
    | CStr s => let l := lower s in
        if String.eqb l "1" || String.eqb l "true" || String.eqb l "on" || String.eqb l "yes" then Some true
        else if String.eqb l "0" || String.eqb l "false" || String.eqb l "off" || String.eqb l "no" then Some false else None
    | _ => None
    end.
  (** config 0.13 (external) [Value::into_string] *)
  Definition get_string (v : cval) : option string :=
    match v with
    | CStr s => Some s
    | CBool b => Some (if b then "true" else "false")
    | CInt z => Some (zshow z)
    | _ => None
    end.
  (** config 0.13 (external) Display of a scalar value; nested tables and arrays do not occur in the options *)
  Definition show (v : cval) : string := match get_string v with Some s => s | None => "nil" end.

  Fixpoint dashes (s : string) : string :=
    match s with EmptyString => "" | String c t => String (if Ascii.eqb c "_" then "-"%char else c) (dashes t) end.
  (** crates/oro-config/src/lib.rs:72-107: the arguments pushed for one option [opt] (dashed name) *)
  Definition emit (cfg : list (string * cval)) (opt : string) : list string :=
    match sget opt cfg with
    | None => []
    | Some v =>
        match get_bool v with
        | Some true => [("--" ++ opt)%string]
        | Some false => [("--no-" ++ opt)%string]
        | None =>
            match get_string v with
            | Some s => [("--" ++ opt)%string; s]
            | None =>
                match v with
                | CTable l =>
                    flat_map (fun e => match snd e with
                                       | CTable m => flat_map (fun f => [("--" ++ opt)%string; ("{" ++ fst e ++ "}" ++ fst f ++ "=" ++ show (snd f))%string]) m
                                       | w => [("--" ++ opt)%string; (fst e ++ "=" ++ show w)%string]
                                       end) l
                | CArray l => flat_map (fun w => match get_string w with Some s => [("--" ++ opt)%string; s] | None => [] end) l
                | _ => []
                end
            end
        end
    end.
  (** crates/oro-config/src/lib.rs:53-110 [layered_args] for one command: [ids] its long options in the order the HashSet
      happens to iterate; [given]: clap's [value_source == CommandLine]; [args]: the command line *)
  Fixpoint layered (given : string -> bool) (cfg : list (string * cval)) (ids : list string) (args : list string) : list string :=
    match ids with
    | [] => args
    | id :: t =>
        let opt := dashes id in
        let args' := if given id then args
                     else if existsb (String.eqb ("--no-" ++ opt)) args then args
                     else args ++ emit cfg opt in
        layered given cfg t args'
    end.
End Show.

(** ** debug logs *)
(** OsString ordering: bytewise *)
Fixpoint slt (a b : string) : bool :=
  match a, b with
  | _, EmptyString => false
  | EmptyString, String _ _ => true
  | String x a', String y b' =>
      if Nat.ltb (nat_of_ascii x) (nat_of_ascii y) then true
      else if Nat.ltb (nat_of_ascii y) (nat_of_ascii x) then false else slt a' b'
  end.
(** a directory entry: name, and whether remove_file works on it (false: a directory, or no permission) *)
Definition entry := (string * bool)%type.
(** Vec::sort_by_key(file_name), which is stable *)
Fixpoint insert_entry (e : entry) (l : list entry) : list entry :=
  match l with [] => [e] | x :: t => if slt (fst x) (fst e) then x :: insert_entry e t else e :: x :: t end.
Fixpoint sort_entries (l : list entry) : list entry := match l with [] => [] | e :: t => insert_entry e (sort_entries t) end.
(** src/lib.rs:125 [MAX_RETAINED_LOGS] *)
Definition max_retained := 5.
(** src/lib.rs:777-780: deleted entries so far, and the rest *)
Fixpoint clean_loop (fuel : nat) (l : list entry) (deleted : list entry) : res err unit * list entry * list entry :=
  match fuel with
  | 0 => (Panic, deleted, l)
  | S f =>
      if Nat.leb max_retained (List.length l) then
        match l with
        | [] => (Panic, deleted, l)
        | e :: t => if snd e then clean_loop f t (deleted ++ [e]) else (Err EIo, deleted, l)
        end
      else (Ok tt, deleted, l)
  end.
(** src/lib.rs:773-783 [clean_old_logs]: outcome, entries deleted, entries left *)
Definition clean_old_logs (dir : option (list entry)) : res err unit * list entry * list entry :=
  match dir with
  | None => (Ok tt, [], [])
  | Some l => let s := sort_entries l in clean_loop (S (List.length s)) s []
  end.

(** ** log names: src/lib.rs:761-771 [log_file_name]; chrono's "%Y-%m-%d-%H-%M-%S%.3f" for years 0 to 9999 *)
Definition digit (n : nat) : ascii := ascii_of_nat (48 + n).
Fixpoint pad (width n : nat) : string :=
  match width with 0 => "" | S w => pad w (n / 10) ++ String (digit (n mod 10)) "" end.
Record stamp := mkStamp { t_year : nat; t_month : nat; t_day : nat; t_hour : nat; t_min : nat; t_sec : nat; t_ms : nat }.
Definition log_name (t : stamp) (i : string) : string :=
  "oro-debug-" ++ pad 4 (t_year t) ++ "-" ++ pad 2 (t_month t) ++ "-" ++ pad 2 (t_day t) ++ "-" ++ pad 2 (t_hour t) ++ "-"
  ++ pad 2 (t_min t) ++ "-" ++ pad 2 (t_sec t) ++ "." ++ pad 3 (t_ms t) ++ "-" ++ i ++ ".log".

(** ** src/lib.rs:747-759 [pkg_root]: [dirs] the start directory and its ancestors, nearest first; each with
    "node_modules is a directory" and "package.json is a file" *)
Fixpoint pkg_root {A} (dirs : list (A * (bool * bool))) : option A :=
  match dirs with
  | [] => None
  | (d, (nm, pj)) :: t => if nm then Some d else if pj then Some d else pkg_root t
  end.

(** ** src/lib.rs:428-454 [build_config], the directories: where the project's oro.kdl is looked for ([self.root], from the first
    parse of the command line, whose default is "."), and the project directory that ends up being used ([root] is set to
    [pkg_root] by default, src/lib.rs:437) *)
Definition config_dir {A} (cli_root : option A) (cwd : A) : A := match cli_root with Some r => r | None => cwd end.
Definition project_dir {A} (cli_root : option A) (cwd : A) (dirs : list (A * (bool * bool))) : A :=
  match cli_root with Some r => r | None => match pkg_root dirs with Some r => r | None => cwd end end.
