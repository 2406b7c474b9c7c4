(** * package.json: serde_json values, crates/oro-pretty-json/src/lib.rs, src/commands/add.rs, src/commands/remove.rs *)
From Verif Require Import Base Types StdPath.
Open Scope list_scope.
Open Scope string_scope.

(** serde_json::Value with [preserve_order] (crates/oro-pretty-json/Cargo.toml:15): an object keeps its keys in order, each once.
    Simplification: a number is its printed text. *)
Inductive json := JNull | JBool (b : bool) | JNum (s : string) | JStr (s : string) | JArr (l : list json) | JObj (l : list (string * json)).

(** ** editing *)
(** serde_json [Map::remove] = indexmap [swap_remove]: the last entry takes the place of the removed one *)
Fixpoint swap_remove {V} (k : string) (l : list (string * V)) : list (string * V) :=
  match l with
  | [] => []
  | (k', v) :: t => if String.eqb k k'
                    then match rev t with [] => [] | last :: r => last :: rev r end
                    else (k', v) :: swap_remove k t
  end.
(** serde_json [Value::index(&str)]: null unless an object with that key *)
Definition jindex (k : string) (v : json) : json :=
  match v with JObj l => match sget k l with Some x => x | None => JNull end | _ => JNull end.
(** serde_json [Value::index_mut(&str)] followed by a write: null turns into an object, anything but an object panics *)
Definition jupdate (k : string) (f : json -> res err json) (v : json) : res err json :=
  match v with
  | JNull => let! x := f JNull in Ok (JObj [(k, x)])
  | JObj l => let! x := f (match sget k l with Some x => x | None => JNull end) in Ok (JObj (sput k x l))
  | _ => Panic
  end.

Definition sections : list string := ["dependencies"; "devDependencies"; "optionalDependencies"; "peerDependencies"].
(** src/commands/remove.rs:86-98 / add.rs:150-162: one section; also the number of entries removed *)
Definition remove_in (name ty : string) (v : json) : json * nat :=
  match v with
  | JObj l =>
      match sget ty l with
      | Some (JObj o) => match sget name o with
                         | Some _ => (JObj (sput ty (JObj (swap_remove name o)) l), 1)
                         | None => (v, 0)
                         end
      | _ => (v, 0)
      end
  | _ => (v, 0)
  end.
(** src/commands/remove.rs:78-101, add.rs:142-165 [remove_from_manifest] *)
Definition remove_from_manifest (name : string) (v : json) : json * nat :=
  fold_left (fun acc ty => let '(w, n) := remove_in name ty (fst acc) in (w, snd acc + n)) sections (v, 0).
(** src/commands/add.rs:162-170 [dep_kind_str] *)
Definition dep_kind (dev opt : bool) : string := if dev then "devDependencies" else if opt then "optionalDependencies" else "dependencies".
(** src/commands/add.rs:135-140 [add_to_manifest] *)
Definition add_to_manifest (dev opt : bool) (name spec : string) (v : json) : res err json :=
  jupdate (dep_kind dev opt) (jupdate name (fun _ => Ok (JStr spec))) v.

Section Remove.
  (** FromStr for PackageSpec *)
  Variable parse_spec : string -> res err pspec.
  (** src/commands/remove.rs:36-48: the edited manifest and the number of dependencies removed *)
  Fixpoint remove_names (names : list string) (v : json) (count : nat) : res err (json * nat) :=
    match names with
    | [] => Ok (v, count)
    | n :: t => match parse_spec n with
                | Ok (SNpm _ nm _) => let '(v', c) := remove_from_manifest nm v in remove_names t v' (count + c)
                | Panic => Panic
                | _ => Err EInvalidSpec
                end
    end.
End Remove.

Section Add.
  (** Nassun::resolve (network): the package a command-line spec resolves to *)
  Variable resolve : string -> res err package.
  Variable parse_spec : string -> res err pspec.
  (** Display of a version, and [GitInfo], and [PackageSpec::requested] (oro-package-spec/src/lib.rs:86-105) *)
  Variable vshow : version -> string.
  Variable gitshow : gitinfo -> string.
  Variable requested : pspec -> string.
  Variable prefix : string.

  (** oro-package-spec/src/lib.rs:71-84 [target_mut], used to set the requirement *)
  Fixpoint with_requested (r : vspec) (s : pspec) : res err pspec :=
    match s with
    | SAlias n s' => let! t := with_requested r s' in Ok (SAlias n t)
    | SNpm sc n _ => Ok (SNpm sc n (Some r))
    | _ => Panic
    end.
  (** src/commands/add.rs:55-88: the text recorded for the dependency *)
  Definition recorded (spec : string) (pkg : package) : res err string :=
    match parse_spec spec with
    | Ok s =>
        match target s with
        | SAlias _ _ => Panic
        | SGit i => Ok (gitshow i)
        | SDir p => Ok p
        | SNpm _ _ _ =>
            match pk_resolved pkg with
            | RNpm _ v _ _ => let! f := with_requested (VTag (prefix ++ vshow v)) (pk_from pkg) in Ok (requested f)
            | _ => Panic
            end
        end
    | Err e => Err e
    | Panic => Panic
    end.
  (** src/commands/add.rs:51-96, the loop *)
  Fixpoint add_specs (dev opt : bool) (specs : list string) (v : json) : res err json :=
    match specs with
    | [] => Ok v
    | s :: t =>
        let! pkg := resolve s in
        let! r := recorded s pkg in
        let v1 := fst (remove_from_manifest (pk_name pkg) v) in
        let! v2 := add_to_manifest dev opt (pk_name pkg) r v1 in
        add_specs dev opt t v2
    end.
End Add.

(** ** printing *)
Definition nl : ascii := ascii_of_nat 10.
Definition cr : ascii := ascii_of_nat 13.
Definition tab : ascii := ascii_of_nat 9.
Definition s1 (c : ascii) : string := String c "".
Definition hexd (n : nat) : ascii := ascii_of_nat (if Nat.ltb n 10 then 48 + n else 87 + n).
Definition dq : ascii := ascii_of_nat 34.
(** serde_json (external) [format_escaped_str]: quote, backslash and characters below 0x20 are escaped *)
Definition esc_char (c : ascii) : string :=
  let n := nat_of_ascii c in
  if Nat.eqb n 34 then String "\" (s1 dq)
  else if Nat.eqb n 92 then "\\"
  else if Nat.eqb n 8 then "\b" else if Nat.eqb n 9 then "\t" else if Nat.eqb n 10 then "\n"
  else if Nat.eqb n 12 then "\f" else if Nat.eqb n 13 then "\r"
  else if Nat.ltb n 32 then "\u00" ++ s1 (hexd (n / 16)) ++ s1 (hexd (n mod 16))
  else s1 c.
Fixpoint esc (s : string) : string := match s with EmptyString => "" | String c t => esc_char c ++ esc t end.
Definition quote (s : string) : string := String dq (esc s ++ s1 dq).
Fixpoint srepeat (s : string) (n : nat) : string := match n with 0 => "" | S n' => s ++ srepeat s n' end.

(** [join]: the strings of a list separated by [sep] *)
Fixpoint sjoin (sep : string) (l : list string) : string :=
  match l with [] => "" | [x] => x | x :: t => (x ++ sep ++ sjoin sep t)%string end.
(** serde_json (external) [to_string_pretty]: two spaces per level, an empty array or object on one line *)
Fixpoint serde_pretty (d : nat) (v : json) : string :=
  let block (o c : string) (items : list string) : string :=
    (o ++ s1 nl ++ sjoin ("," ++ s1 nl) items ++ s1 nl ++ srepeat "  " d ++ c)%string in
  match v with
  | JNull => "null"
  | JBool true => "true"
  | JBool false => "false"
  | JNum s => s
  | JStr s => quote s
  | JArr [] => "[]"
  | JArr l => block "[" "]" (map (fun x => (srepeat "  " (S d) ++ serde_pretty (S d) x)%string) l)
  | JObj [] => "{}"
  | JObj l => block "{" "}" (map (fun e => (srepeat "  " (S d) ++ quote (fst e) ++ ": " ++ serde_pretty (S d) (snd e))%string) l)
  end.

(** pretty-json/src/lib.rs:7-13 [Formatted] *)
Record formatted := mkF { f_value : json; f_char : ascii; f_count : nat; f_end : string; f_trail : bool }.

(** pretty-json/src/lib.rs:88-90 *)
Definition ws (c : ascii) : bool := Ascii.eqb c " " || Ascii.eqb c tab || Ascii.eqb c cr || Ascii.eqb c nl.
(** str::lines: split after each '\n', a final empty line dropped, a '\r' before the '\n' dropped *)
Fixpoint strip_cr (s : string) : string :=
  match s with
  | EmptyString => ""
  | String c EmptyString => if Ascii.eqb c cr then "" else s1 c
  | String c t => String c (strip_cr t)
  end.
(** all but the last piece lose their '\r'; the last piece is dropped if empty, else kept as is (Rust 1.66 and later) *)
Fixpoint lines_of (pieces : list string) : list string :=
  match pieces with
  | [] => []
  | [p] => if String.eqb p "" then [] else [p]
  | p :: t => strip_cr p :: lines_of t
  end.
Definition lines (s : string) : list string := lines_of (split nl s).

(** pretty-json/src/lib.rs:53-71 [detect_indentation] *)
Fixpoint lead_ws (n : nat) (last : option ascii) (s : string) : option (ascii * nat) :=
  match s with
  | EmptyString => None
  | String c t => if ws c then lead_ws (S n) (Some c) t else match last with Some l => Some (l, n) | None => None end
  end.
Definition detect_indentation (s : string) : option (ascii * nat) :=
  match lines s with _ :: l2 :: _ => lead_ws 0 None l2 | _ => None end.
(** pretty-json/src/lib.rs:73-86 [detect_line_end] *)
Fixpoint last_char (s : string) : option ascii :=
  match s with EmptyString => None | String c EmptyString => Some c | String _ t => last_char t end.
Fixpoint first_end (s : string) : option string :=
  match s with
  | EmptyString => None
  | String c t => if Ascii.eqb c cr then Some (match t with String c' _ => if Ascii.eqb c' nl then String cr (s1 nl) else s1 cr | _ => s1 cr end)
                  else if Ascii.eqb c nl then Some (s1 nl) else first_end t
  end.
Definition detect_line_end (s : string) : option (string * bool) :=
  match first_end s with
  | Some e => Some (e, match last_char s with Some c => Ascii.eqb c nl || Ascii.eqb c cr | None => false end)
  | None => None
  end.
(** pretty-json/src/lib.rs:15-27 [from_str]; [parse] is serde_json::from_str *)
Definition from_str (parse : string -> option json) (s : string) : option formatted :=
  match parse s with
  | None => None
  | Some v =>
      let '(c, n) := match detect_indentation s with Some p => p | None => (" "%char, 2) end in
      let '(e, t) := match detect_line_end s with Some p => p | None => (s1 nl, false) end in
      Some (mkF v c n e t)
  end.
(** pretty-json/src/lib.rs:36-47, one line: leading whitespace counted, and replaced *)
Fixpoint count_ws (s : string) : option nat :=
  match s with EmptyString => None | String c t => if ws c then option_map S (count_ws t) else Some 0 end.
Fixpoint drop_n (n : nat) (s : string) : string :=
  match n, s with 0, _ => s | S n', String _ t => drop_n n' t | S _, EmptyString => "" end.
Definition reindent (f : formatted) (line : string) : string :=
  let n := match count_ws line with Some n => n | None => 0 end in
  srepeat (s1 (f_char f)) (f_count f * (n / 2)) ++ drop_n n line.
Fixpoint join_lines (f : formatted) (ls : list string) : string :=
  match ls with [] => "" | [l] => reindent f l | l :: t => reindent f l ++ f_end f ++ join_lines f t end.
(** pretty-json/src/lib.rs:29-51 [to_string_pretty] *)
Definition to_string_pretty (f : formatted) : string :=
  join_lines f (lines (serde_pretty 0 (f_value f))) ++ (if f_trail f then f_end f else "").
