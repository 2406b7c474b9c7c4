(** * oro view: src/commands/view.rs, with the full registry document of crates/oro-common/src/packument.rs [Packument],
    [VersionMetadata], [Dist] and crates/oro-common/src/manifest.rs [Manifest] (serde, both ways), crates/nassun/src/fetch/npm.rs
    [metadata] and [packument], crates/oro-client/src/api/packument.rs:35-43, and [metadata], [packument] of
    crates/nassun/src/fetch/dir.rs.

    A value of one of these types is represented by what serde prints for it: a reader is a function from the JSON value read to the JSON
    value printed (None: reading fails).
    Simplifications: std HashMaps are printed in the order of the document (the code: in any order; the theorems speak of members by
    name); as for package.json (ManifestRead), a member given twice counts as the last, and arrays are not accepted in place of structs. *)
From Verif Require Import Base Types StdPath JsonModel JsonSpec JsonRead ResolverModel Kdl VersionModel ManifestRead PackumentModel BinModel JsonSpec.
Open Scope string_scope.
Open Scope list_scope.

Definition reader := json -> option json.
(** serde for String and PathBuf, bool, Option, Vec, HashMap/IndexMap<String, _>, Value *)
Definition c_text : reader := fun v => match v with JStr s => Some (JStr s) | _ => None end.
Definition c_bool : reader := fun v => match v with JBool b => Some (JBool b) | _ => None end.
Definition c_opt (c : reader) : reader := fun v => match v with JNull => Some JNull | _ => c v end.
Fixpoint c_all (c : reader) (l : list json) : option (list json) :=
  match l with [] => Some [] | v :: t => match c v, c_all c t with Some w, Some r => Some (w :: r) | _, _ => None end end.
Definition c_list (c : reader) : reader := fun v => match v with JArr l => option_map JArr (c_all c l) | _ => None end.
Fixpoint c_vals (c : reader) (l : list (string * json)) : option (list (string * json)) :=
  match l with [] => Some [] | (k, v) :: t => match c v, c_vals c t with Some w, Some r => Some ((k, w) :: r) | _, _ => None end end.
Definition c_map (c : reader) : reader := fun v => match v with JObj l => option_map JObj (c_vals c l) | _ => None end.
Definition c_any : reader := fun v => Some v.
(** an untagged enum *)
Definition c_or (a b : reader) : reader := fun v => match a v with Some w => Some w | None => b v end.
(** a derived struct whose fields are all String ([true]) or Option<String>: other members are ignored; printed field by field, None as null *)
Fixpoint c_fields (fs : list (string * bool)) (l : list (string * json)) : option (list (string * json)) :=
  match fs with
  | [] => Some []
  | (k, need) :: t =>
      match (match sget k l with None => if need then None else Some JNull | Some v => if need then c_text v else c_opt c_text v end), c_fields t l with
      | Some w, Some r => Some ((k, w) :: r)
      | _, _ => None
      end
  end.
Definition c_record (fs : list (string * bool)) : reader := fun v => match v with JObj l => option_map JObj (c_fields fs l) | _ => None end.

(** a field of a struct with a flattened rest: its name and aliases in JSON, its reader, when it is not printed ([skip_serializing_if]), and
    what is printed if it is missing ([#[serde(default)]], or None) *)
Record field_spec := mkField { fd_names : list string; fd_read : reader; fd_hide : json -> bool; fd_missing : list (string * json) }.
Definition fd_key (f : field_spec) : string := match fd_names f with k :: _ => k | [] => "" end.
Definition is_named (f : field_spec) (k : string) : bool := existsb (String.eqb k) (fd_names f).
Definition h_null (v : json) : bool := match v with JNull => true | _ => false end.
Definition h_empty (v : json) : bool := match v with JArr [] | JObj [] => true | _ => false end.
Definition h_never (v : json) : bool := false.
(** the field from the members of the object; two members for it are an error *)
Definition read_field (f : field_spec) (l : list (string * json)) : option (list (string * json)) :=
  match filter (fun e => is_named f (fst e)) l with
  | [] => Some (fd_missing f)
  | [(_, v)] => match fd_read f v with Some w => Some (if fd_hide f w then [] else [(fd_key f, w)]) | None => None end
  | _ => None
  end.
Fixpoint read_fields (fs : list field_spec) (l : list (string * json)) : option (list (string * json)) :=
  match fs with
  | [] => Some []
  | f :: t => match read_field f l, read_fields t l with Some a, Some b => Some (a ++ b) | _, _ => None end
  end.
(** the members that are no field: the flattened [rest] *)
Definition rest_of (fs : list field_spec) (l : list (string * json)) : list (string * json) :=
  filter (fun e => negb (existsb (fun f => is_named f (fst e)) fs)) l.
Definition read_flat (fs : list field_spec) (l : list (string * json)) : option (list (string * json)) :=
  option_map (fun a => a ++ rest_of fs l) (read_fields fs l).

Definition f_opt (k : string) (c : reader) : field_spec := mkField [k] (c_opt c) h_null [].
Definition f_default (k : string) (c : reader) : field_spec := mkField [k] c h_empty [].

Section Read.
  (** parsing, then printing: node_semver::Version, node_semver::Range, url::Url *)
  Variable vparse : string -> option version.
  Variable vshow : version -> string.
  Variable rnorm : string -> option string.
  Variable uparse : string -> option string.
  (** serde_json: the number is a usize *)
  Variable is_count : string -> bool.
  Variable number : string -> option string.

  Definition c_version : reader := fun v => match v with JStr s => option_map (fun x => JStr (vshow x)) (vparse s) | _ => None end.
  Definition c_range : reader := fun v => match v with JStr s => option_map JStr (rnorm s) | _ => None end.
  Definition c_url : reader := fun v => match v with JStr s => option_map JStr (uparse s) | _ => None end.
  Definition c_count : reader := fun v => match v with JNum s => if is_count s then Some (JNum s) else None | _ => None end.
  (** manifest.rs:284-300 [PersonField], [Person]; 275-282 [Bugs]; 317-323 [Bin]; 325-330 [Man]; 350-361 [Repository]; packument.rs:155-160 [NpmUser] *)
  Definition c_person : reader := c_or c_text (c_record [("name", false); ("email", false); ("url", false)]).
  Definition c_bugs : reader := c_or c_text (c_record [("url", false); ("email", false)]).
  Definition c_bin : reader := c_or c_text (c_or (c_map c_text) (c_list c_text)).
  Definition c_man : reader := c_or c_text (c_list c_text).
  Definition c_repository : reader := c_or c_text (c_record [("type", false); ("url", false); ("directory", false)]).
  Definition c_npm_user : reader := c_record [("name", true); ("email", false)].
  (** manifest.rs:267-273 [BundledDependencies] and 275-281 [empty_bundled_dependencies] *)
  Definition c_bundled : reader := c_or c_bool (c_list c_text).
  Definition h_bundled (v : json) : bool := match v with JNull | JBool false | JArr [] => true | _ => false end.
  (** manifest.rs:245-265 [object_or_bust]: anything else counts as empty *)
  Definition c_engines : reader := c_or (c_map c_range) (fun _ => Some (JObj [])).
  (** packument.rs:145-150, 163-209: a string, or a boolean of which [false] is None *)
  Definition c_deprecated : reader := c_or c_text c_bool.
  Definition h_deprecated (v : json) : bool := match v with JBool false => true | _ => false end.
  (** packument.rs:225-242 [Dist]: printed in full, None as null *)
  Definition dist_fields : list field_spec :=
    let f k c := mkField [k] (c_opt c) h_never [(k, JNull)] in
    [f "shasum" c_text; f "tarball" c_url; f "integrity" c_text; f "fileCount" c_count; f "unpackedSize" c_count; f "npm-signature" c_text].
  Definition c_dist : reader := fun v => match v with JObj l => option_map JObj (read_flat dist_fields l) | _ => None end.
  Definition no_dist : json := JObj (flat_map fd_missing dist_fields).

  (** manifest.rs:30-197 [Manifest] (Exports and Imports, 332-348, take any value); [directories] is skipped by serde: it is in the rest *)
  Definition manifest_fields : list field_spec :=
    [ f_opt "name" c_text; f_opt "version" c_version; f_opt "description" c_text; f_opt "homepage" c_text;
      mkField ["license"; "licence"] (c_opt c_text) h_null []; f_opt "bugs" c_bugs; f_default "keywords" (c_list c_text);
      f_opt "bin" c_bin; f_opt "author" c_person; f_default "contributors" (c_list c_person); f_opt "files" (c_list c_text);
      f_opt "main" c_text; f_opt "man" c_man; f_opt "type" c_text; f_opt "exports" c_any; f_opt "imports" c_any; f_opt "repository" c_repository;
      f_default "scripts" (c_map c_text); f_opt "config" c_any; f_default "engines" c_engines; f_default "os" (c_list c_text);
      f_default "cpu" (c_list c_text); f_opt "private" c_bool; f_default "publishConfig" (c_map c_any);
      f_default "dependencies" (c_map c_text); f_default "devDependencies" (c_map c_text); f_default "optionalDependencies" (c_map c_text);
      f_default "peerDependencies" (c_map c_text); mkField ["bundledDependencies"; "bundleDependencies"] (c_opt c_bundled) h_bundled [];
      f_default "workspaces" (c_list c_text) ].
  (** packument.rs:88-107 [VersionMetadata]: these, and the manifest flattened *)
  Definition version_fields : list field_spec :=
    [ f_default "maintainers" (c_list c_person); f_opt "_npmUser" c_npm_user; mkField ["dist"] c_dist h_never [("dist", no_dist)];
      f_opt "_hasShrinkwrap" c_bool; mkField ["deprecated"] c_deprecated h_deprecated [] ].
  Definition metadata_fields : list field_spec := version_fields ++ manifest_fields.
  Definition read_metadata (v : json) : option (list (string * json)) := match v with JObj l => read_flat metadata_fields l | _ => None end.

  (** packument.rs:25-35 [Packument]: versions (keys that are the same version: the last), time, tags *)
  Record packument_full := mkFull { pf_versions : list (version * list (string * json)); pf_time : list (string * string) }.
  Fixpoint read_versions_full (acc : list (version * list (string * json))) (l : list (string * json)) : option (list (version * list (string * json))) :=
    match l with
    | [] => Some acc
    | (k, v) :: t => match vparse k, read_metadata v with Some x, Some e => read_versions_full (aput version_eqb x e acc) t | _, _ => None end
    end.
  Definition read_full_doc (v : json) : option packument_full :=
    match v with
    | JObj l =>
        match (match sget "versions" l with None => Some [] | Some (JObj vs) => read_versions_full [] vs | _ => None end),
              (match sget "dist-tags" l with None => Some [] | Some (JObj ts) => read_tags vparse ts | _ => None end),
              (match sget "time" l with None => Some [] | Some (JObj ts) => texts ts | _ => None end) with
        | Some vs, Some _, Some tm => Some (mkFull vs tm)
        | _, _, _ => None
        end
    | _ => None
    end.
  (** oro-client api/packument.rs:35-43 *)
  Definition read_full (t : string) : option packument_full := obind (jread number t) read_full_doc.

  Variable rsat : range -> version -> bool.
  Variable canon : string -> option string.
  Variable is_any : range -> bool.
  Variable iparse : string -> option string.
  Variable default_tag : string.
  Variable at_base : string -> string.

  (** view.rs:30-32 for a request that leads to the registry: [resolve] (nassun client.rs:295-301, resolver.rs:124-140) from the response [t1],
      [packument] (npm.rs:117-147) from [t2], [metadata] (npm.rs:81-92) from [t3].  npm.rs:120-124: an alias is looked through once; for what it
      leads to not being a registry package, the code panics.
      Simplification: errors of reading are all [EParse]; other requests give [EInvalidSpec] (directories: [view_dir]). *)
  Definition view_npm (sp : pspec) (t1 t2 t3 : string) : res err (packument_full * list (string * json)) :=
    match target sp with
    | SNpm _ _ _ =>
        match read_packument vparse uparse number t1 with
        | None => Err EParse
        | Some d1 =>
            let! r := get_resolution rsat canon is_any iparse default_tag at_base (request_name sp) sp (pack d1) in
            match r with
            | RNpm _ ver _ _ =>
                match (match sp with SAlias _ s => s | s => s end) with
                | SNpm _ _ _ =>
                    match read_full t2 with
                    | None => Err EParse
                    | Some d2 =>
                        match read_full t3 with
                        | None => Err EParse
                        | Some d3 => match aget version_eqb ver (pf_versions d3) with None => Err EMissingVersion | Some e => Ok (d2, e) end
                        end
                    end
                | _ => Panic
                end
            | _ => Err EInvalidSpec
            end
        end
    | _ => Err EInvalidSpec
    end.
  (** view.rs:33-44: with --json, the metadata, pretty-printed *)
  Definition view_json (sp : pspec) (t1 t2 t3 : string) : res err string :=
    let! r := view_npm sp t1 t2 t3 in Ok (serde_pretty 0 (JObj (snd r)) ++ s1 nl)%string.

  (** view.rs:46-171: what is printed otherwise.  The colours, the grid of dependencies (dropped altogether if it does not fit the terminal)
      and the date of publication are left out. *)
  Record shown := mkShown {
    sh_name : string; sh_version : version; sh_license : string; sh_deps : nat; sh_releases : nat;
    sh_description : option string; sh_homepage : option string; sh_deprecated : option (option string); sh_keywords : list string;
    sh_bins : option (list string); sh_tarball : option string; sh_shasum : option string; sh_integrity : option string;
    sh_listed : list (string * string); sh_more : option nat }.
  Definition jtext (o : option json) : option string := match o with Some (JStr s) => Some s | _ => None end.
  Definition jtexts (o : option json) : list string :=
    match o with Some (JArr l) => flat_map (fun v => match v with JStr s => [s] | _ => [] end) l | _ => [] end.
  Definition jpairs (o : option json) : list (string * string) :=
    match o with Some (JObj l) => flat_map (fun e => match snd e with JStr s => [(fst e, s)] | _ => [] end) l | _ => [] end.
  (** view.rs:110-122 *)
  Definition view_bins (name : string) (b : json) : list string :=
    match b with
    | JStr _ => [name]
    | JObj l => map fst l
    | JArr l => flat_map (fun v => match v with JStr s => match file_name s with Some n => [n] | None => [] end | _ => [] end) l
    | _ => []
    end.
  (** view.rs:150-152: [deps.sort()] on pairs of strings (here: a stable insertion sort by name, names being different) *)
  Fixpoint insert_dep (e : string * string) (l : list (string * string)) : list (string * string) :=
    match l with [] => [e] | d :: t => if String.leb (fst e) (fst d) then e :: l else d :: insert_dep e t end.
  Definition sort_deps (l : list (string * string)) : list (string * string) := fold_right insert_dep [] l.
  Definition or_else {A} (o : option A) (d : A) : A := match o with Some x => x | None => d end.
  Definition view_shown (d : packument_full) (e : list (string * json)) : shown :=
    let dependencies := jpairs (sget "dependencies" e) in
    let dist k := match sget "dist" e with Some (JObj l) => jtext (sget k l) | _ => None end in
    mkShown (or_else (jtext (sget "name" e)) "") (or_else (obind (jtext (sget "version" e)) vparse) (mkV 0 0 0 []))
      (or_else (jtext (sget "license" e)) "Proprietary") (List.length dependencies) (List.length (pf_versions d))
      (jtext (sget "description" e)) (jtext (sget "homepage" e))
      (match sget "deprecated" e with Some (JStr s) => Some (Some s) | Some (JBool _) => Some None | _ => None end)
      (jtexts (sget "keywords" e))
      (match sget "bin" e with Some b => Some (view_bins (or_else (jtext (sget "name" e)) "") b) | None => None end)
      (dist "tarball") (dist "shasum") (dist "integrity")
      (firstn 25 (sort_deps dependencies)) (if Nat.ltb 25 (List.length dependencies) then Some (List.length dependencies - 25) else None).

  (** dir.rs:39-47, 187-204 [into_metadata], for view of a directory: [base] is the name of the directory, if it has one *)
  Definition view_dir (base : option string) (t : string) : res err (list (string * json)) :=
    match obind (jread number t) (fun v => match v with JObj l => read_flat manifest_fields l | _ => None end) with
    | None => Err EParse
    | Some m =>
        match (match jtext (sget "name" m) with Some n => Some n | None => base end) with
        | None => Err EInvalidSpec
        | Some n =>
            let ver := or_else (jtext (sget "version" m)) (vshow (mkV 0 0 0 [])) in
            Ok (("dist", no_dist) :: ("name", JStr n) :: ("version", JStr ver)
                :: filter (fun e => negb (String.eqb (fst e) "name" || String.eqb (fst e) "version")) m)
        end
    end.
End Read.
