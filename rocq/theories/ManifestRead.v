(** * Reading package.json as a manifest.  Models crates/oro-common/src/manifest.rs:11-28 [CorgiManifest] (serde) and 271-276
    [BundledDependencies], as used by src/commands/{apply.rs:27-35,reapply.rs:44-52,add.rs:105-106,remove.rs:56-57}. *)
From Verif Require Import Base Types StdPath JsonModel JsonSpec JsonRead ResolverModel Kdl.
Open Scope list_scope.
Open Scope string_scope.

(** serde for IndexMap<String, String>: an object whose values are all strings (null is an error) *)
Fixpoint texts (l : list (string * json)) : option (list (string * string)) :=
  match l with
  | [] => Some []
  | (k, JStr s) :: t => option_map (cons (k, s)) (texts t)
  | _ => None
  end.
Definition text_map (v : json) : option (list (string * string)) := match v with JObj l => texts l | _ => None end.
(** manifest.rs:18-25: a section with [#[serde(default)]]: empty if missing *)
Definition deps_section (sec : string) (l : list (string * json)) : option (list (string * string)) :=
  match sget sec l with None => Some [] | Some o => text_map o end.
(** manifest.rs:14-15 [name: Option<String>]: missing, null or a string *)
Definition ok_name (o : option json) : bool := match o with None | Some JNull | Some (JStr _) => true | _ => false end.
(** manifest.rs:271-276, an untagged enum: a boolean or a list of strings; manifest.rs:27 Option: or null *)
Definition ok_bundled (o : option json) : bool :=
  match o with
  | None | Some JNull | Some (JBool _) => true
  | Some (JArr l) => forallb (fun x => match x with JStr _ => true | _ => false end) l
  | _ => false
  end.

Section Corgi.
  (** serde for node_semver::Version: the string parses *)
  Variable vparses : string -> bool.
  (** manifest.rs:16-17 [version: Option<Version>] *)
  Definition ok_version (o : option json) : bool := match o with None | Some JNull => true | Some (JStr s) => vparses s | _ => false end.
  (** manifest.rs:11-28: the derived [Deserialize], on a value.  Fields with other names are ignored; "bundleDependencies" and
      "bundledDependencies" are the same field, and a field given twice is an error.  The result keeps the three sections the
      resolver reads.  Simplifications: an array is not accepted in place of the object (serde derives accept one, field by field); a text in
      which one of these keys appears twice is read as if only the last were there (serde reports an error); numbers and nesting
      inside ignored fields are read as strictly as everywhere else. *)
  Definition corgi (v : json) : option manifest :=
    match v with
    | JObj l =>
        if ok_name (sget "name" l) && ok_version (sget "version" l)
           && ok_bundled (sget "bundledDependencies" l) && ok_bundled (sget "bundleDependencies" l)
           && negb (match sget "bundledDependencies" l, sget "bundleDependencies" l with Some _, Some _ => true | _, _ => false end)
        then match deps_section "dependencies" l, deps_section "optionalDependencies" l, deps_section "devDependencies" l, deps_section "peerDependencies" l with
             | Some d, Some o, Some e, Some _ => Some (mkMan d o e)
             | _, _, _, _ => None
             end
        else None
    | _ => None
    end.
  (** serde_json's treatment of numbers, as for [jread] *)
  Variable number : string -> option string.
  (** [serde_json::from_str::<CorgiManifest>] on the text of package.json *)
  Definition read_manifest (t : string) : option manifest := obind (jread number t) corgi.
End Corgi.
