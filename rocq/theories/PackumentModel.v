(** * Reading a registry's document for a package, and answering a request from it.
    Models crates/oro-common/src/packument.rs [CorgiPackument], [CorgiVersionMetadata], [CorgiDist] (serde),
    crates/oro-client/src/api/packument.rs:25-33 [corgi_packument] (the text of the response is parsed),
    crates/nassun/src/resolver.rs:124-140 [resolve] and crates/nassun/src/fetch/npm.rs:68-79 [corgi_metadata], as called by
    crates/node-maintainer/src/resolver.rs:191-219. *)
From Verif Require Import Base Types StdPath JsonModel JsonSpec JsonRead ResolverModel Kdl VersionModel ManifestRead.
Open Scope list_scope.
Open Scope string_scope.

(** packument.rs:70-85, what is used of one version: the fields [get_resolution] reads, the manifest, whether "name" is there (as a text)
    and whether [deprecated] is [Some] *)
Record ventry := mkEntry { ve_meta : vmeta; ve_manifest : manifest; ve_named : bool; ve_deprecated : bool }.
(** packument.rs:15-21 *)
Record document := mkDoc { dc_versions : list (version * ventry); dc_tags : list (string * version) }.
Definition pack (d : document) : packument := mkPack (map (fun e => (fst e, ve_meta (snd e))) (dc_versions d)) (dc_tags d).

(** serde for Option<String>: missing, null or a string *)
Definition opt_text (o : option json) : option (option string) :=
  match o with None | Some JNull => Some None | Some (JStr s) => Some (Some s) | _ => None end.
(** packument.rs:74-75 [_hasShrinkwrap: Option<bool>] *)
Definition ok_bool (o : option json) : bool := match o with None | Some JNull | Some (JBool _) => true | _ => false end.
(** packument.rs:78-84 and 184-201: missing, a string or a boolean (null is neither); the result says whether it is [Some] *)
Definition read_deprecated (o : option json) : option bool :=
  match o with None => Some false | Some (JStr _) => Some true | Some (JBool b) => Some b | _ => None end.

Section Read.
  (** node_semver::Version::parse *)
  Variable vparse : string -> option version.
  (** url::Url::parse, then Display *)
  Variable uparse : string -> option string.
  (** serde_json's treatment of numbers, as for [jread] *)
  Variable number : string -> option string.

  Definition vparses (s : string) : bool := is_some (vparse s).
  (** serde for Option<Url> *)
  Definition opt_url (o : option json) : option (option string) :=
    match opt_text o with Some (Some s) => option_map Some (uparse s) | r => r end.
  (** packument.rs:72-73 and 205-211 [CorgiDist]: empty if missing.  Simplification: an array is not accepted in place of the object *)
  Definition read_dist (o : option json) : option (option string * option string * option string) :=
    match o with
    | None => Some (None, None, None)
    | Some (JObj l) =>
        match opt_text (sget "shasum" l), opt_url (sget "tarball" l), opt_text (sget "integrity" l), opt_text (sget "npm-signature" l) with
        | Some s, Some t, Some i, Some _ => Some (t, i, s)
        | _, _, _, _ => None
        end
    | _ => None
    end.
  (** manifest.rs:16-17: the version, once [corgi] has accepted the entry *)
  Definition own_version (o : option json) : option version := match o with Some (JStr s) => vparse s | _ => None end.
  (** packument.rs:70-85, the manifest being flattened into the same object *)
  Definition read_entry (v : json) : option ventry :=
    match v with
    | JObj l =>
        match corgi vparses v, read_dist (sget "dist" l), read_deprecated (sget "deprecated" l) with
        | Some m, Some (t, i, s), Some d =>
            if ok_bool (sget "_hasShrinkwrap" l)
            then Some (mkEntry (mkVm (own_version (sget "version" l)) t i s) m (match sget "name" l with Some (JStr _) => true | _ => false end) d)
            else None
        | _, _, _ => None
        end
    | _ => None
    end.
  (** packument.rs:17-18: HashMap<Version, _>; keys that are the same version (build metadata does not count): the last one *)
  Fixpoint read_versions (acc : list (version * ventry)) (l : list (string * json)) : option (list (version * ventry)) :=
    match l with
    | [] => Some acc
    | (k, v) :: t => match vparse k, read_entry v with Some x, Some e => read_versions (aput version_eqb x e acc) t | _, _ => None end
    end.
  (** packument.rs:19-20: HashMap<String, Version> *)
  Fixpoint read_tags (l : list (string * json)) : option (list (string * version)) :=
    match l with
    | [] => Some []
    | (k, JStr s) :: t => match vparse s with Some x => option_map (cons (k, x)) (read_tags t) | None => None end
    | _ => None
    end.
  (** packument.rs:15-21, both fields with [#[serde(default)]] *)
  Definition read_doc (v : json) : option document :=
    match v with
    | JObj l =>
        match (match sget "versions" l with None => Some [] | Some (JObj vs) => read_versions [] vs | _ => None end),
              (match sget "dist-tags" l with None => Some [] | Some (JObj ts) => read_tags ts | _ => None end) with
        | Some vs, Some ts => Some (mkDoc vs ts)
        | _, _ => None
        end
    | _ => None
    end.
  (** oro-client api/packument.rs:31-32 *)
  Definition read_packument (t : string) : option document := obind (jread number t) read_doc.

  Variable rsat : range -> version -> bool.
  Variable canon : string -> option string.
  Variable is_any : range -> bool.
  Variable iparse : string -> option string.
  Variable default_tag : string.
  Variable at_base : string -> string.

  (** nassun fetch/npm.rs:51-57 [_name] *)
  Definition request_name (sp : pspec) : string := match sp with SNpm _ n _ => n | SAlias n _ => n | _ => "" end.
  (** nassun client.rs:295-301, resolver.rs:124-140, npm.rs:68-79 and node-maintainer resolver.rs:191-219, for a request that leads to a
      registry package: [t1] is the text of the response used for choosing the version, [t2] that of the response in which the chosen
      version's manifest is then looked up (packuments are not memoized by the command line, so they are two responses).
      resolver.rs:211: a deprecated version without a name makes the warning panic.
      Simplifications: the errors of reading are all [EParse]; network errors are not modelled here; requests that are not for the
      registry give [EInvalidSpec]. *)
  Definition registry_answer (sp : pspec) (t1 t2 : string) : outcome :=
    match target sp with
    | SNpm _ _ _ =>
        match read_packument t1 with
        | None => Err EParse
        | Some d1 =>
            let! r := get_resolution rsat canon is_any iparse default_tag at_base (request_name sp) sp (pack d1) in
            match r with
            | RNpm _ ver _ _ =>
                match read_packument t2 with
                | None => Err EParse
                | Some d2 =>
                    match aget version_eqb ver (dc_versions d2) with
                    | None => Err EMissingVersion
                    | Some e => if ve_deprecated e && negb (ve_named e) then Panic else Ok (mkPkg (request_name sp) sp r, ve_manifest e)
                    end
                end
            | _ => Err EInvalidSpec
            end
        end
    | _ => Err EInvalidSpec
    end.
End Read.
