(** * Resolving a spec: crates/nassun/src/client.rs, fetch/npm.rs, fetch/dir.rs, fetch/git.rs.
    External outcomes (the network, git, the file system) are functions; [None] is an error of any kind. *)
From Verif Require Import Base Types VersionModel.
Open Scope string_scope.
Open Scope list_scope.

(** client.rs:55-69 [registry], [scope_registry]: the registries of a client, by scope without '@' *)
Definition registries := list (option string * string).
Definition oseqb (a b : option string) : bool := match a, b with Some x, Some y => String.eqb x y | None, None => true | _, _ => false end.
Notation rget := (aget oseqb).
Notation rput := (aput oseqb).
Definition set_registry (r : registries) (url : string) : registries := rput None url r.
Definition strip_at (s : string) : string := match s with String "@" t => t | _ => s end.
Definition scope_registry (r : registries) (scope url : string) : registries := rput (Some (strip_at scope)) url r.
Definition npmjs : string := "https://registry.npmjs.org/".
(** fetch/npm.rs:43-49 [pick_registry] *)
Definition pick_registry (r : registries) (scope : option string) : string :=
  match rget scope r with Some u => u | None => match rget None r with Some u => u | None => npmjs end end.

Section World.
  (** the registry at a URL answers a packument request for a name *)
  Variable serve : string -> string -> option packument.
  (** what reading the package.json in a directory gives: its name field, and the one-version packument made of it
      (dir.rs:201-240 [into_corgi_packument], [into_packument]) *)
  Variable read_dir : string -> option (option string * packument).
  (** Path::file_name, base_dir.join, the "package" subdirectory of a temporary directory *)
  Variable file_name : string -> option string.
  Variable at_base : string -> string.
  Variable sub : string -> string.
  (** git clone of a repository into DIR/package and checkout of a committish or of the best tag in a range: DIR *)
  Variable clone : string -> option string -> option range -> option string.
  (** download of the tarball of a hosted repository, extracted into DIR: DIR *)
  Variable untar : gitinfo -> option string.
  Variable https_of ssh_of : gitinfo -> string.
  Variable rsat : range -> version -> bool.
  Variable canon : string -> option string.
  Variable is_any : range -> bool.
  Variable iparse : string -> option string.
  Variable default_tag : string.
  Variable regs : registries.
  (** NassunOpts.memoize_metadata *)
  Variable memoize : bool.

  (** the packuments remembered by the npm fetcher: fetch/npm.rs:20-26 *)
  Definition memory := list (string * packument).

  (** dir.rs:48-66 [name_from_path] (the name is filled in by [into_metadata], dir.rs:178-199) *)
  Definition name_from_path (d : string) : res err string :=
    match read_dir d with
    | Some (Some n, _) => Ok n
    | Some (None, _) => match file_name d with Some n => Ok n | None => Err EMissingName end
    | None => Err EFetch
    end.
  (** dir.rs:75-84 [corgi_packument_from_path] *)
  Definition packument_from_path (d : string) : res err packument :=
    match read_dir d with
    | Some (Some _, p) => Ok p
    | Some (None, p) => match file_name d with Some _ => Ok p | None => Err EMissingName end
    | None => Err EFetch
    end.
  Definition of_opt {A} (o : option A) : res err A := match o with Some a => Ok a | None => Err EFetch end.
  (** gitinfo.rs:140-166 [tarball] is present exactly when there is a committish *)
  Definition has_tarball (i : gitinfo) : bool := match i with GHosted _ _ _ (Some _) _ _ => true | _ => false end.
  (** git.rs:36-91 [fetch_to_temp_dir]: the temporary directory *)
  Definition fetch_to_temp_dir (i : gitinfo) : res err string :=
    match i with
    | GUrl u c r => of_opt (clone u c r)
    | GSsh u c r => of_opt (clone u c r)
    | GHosted _ _ _ c r (Some q) => of_opt (clone q c r)
    | GHosted _ _ _ c r None =>
        if has_tarball i then
          match untar i with
          | Some d => Ok d
          | None => match clone (https_of i) c r with
                    | Some d => Ok d
                    | None => of_opt (clone (ssh_of i) c r)
                    end
          end
        else Panic
    end.

  Inductive fetcher := FNpm | FDir | FGit.
  (** client.rs:337-357 [pick_fetcher] *)
  Fixpoint pick_fetcher (s : pspec) : fetcher :=
    match s with SAlias _ s => pick_fetcher s | SNpm _ _ _ => FNpm | SDir _ => FDir | SGit _ => FGit end.
  (** fetch/npm.rs:52-59, dir.rs:100-107, git.rs:190-203 [name] *)
  Definition fetch_name (f : fetcher) (s : pspec) : res err string :=
    match f, s with
    | FNpm, (SNpm _ n _ | SAlias n _) => Ok n
    | FNpm, _ => Panic
    | FDir, SAlias n _ => Ok n
    | FDir, SDir p => name_from_path (at_base p)
    | FDir, _ => Panic
    | FGit, SAlias n _ => Ok n
    | FGit, SGit i => let! d := fetch_to_temp_dir i in name_from_path (sub d)
    | FGit, _ => Panic
    end.
  (** fetch/npm.rs:92-122, dir.rs:135-145, git.rs:231-246 [corgi_packument]; the npm fetcher may remember packuments by name *)
  Definition fetch_packument (f : fetcher) (s : pspec) (m : memory) : res err packument * memory :=
    match f with
    | FNpm =>
        match target s with
        | SNpm sc n _ =>
            match (if memoize then sget n m else None) with
            | Some p => (Ok p, m)
            | None => match serve (pick_registry regs sc) n with
                      | Some p => (Ok p, if memoize then sput n p m else m)
                      | None => (Err EFetch, m)
                      end
            end
        | _ => (Panic, m)
        end
    | FDir => match s with SDir p => (packument_from_path (at_base p), m) | _ => (Panic, m) end
    | FGit => match target s with SGit i => ((let! d := fetch_to_temp_dir i in packument_from_path (sub d)), m) | _ => (Panic, m) end
    end.
  (** client.rs:295-301 [resolve_spec], resolver.rs:121-140 [resolve] *)
  Definition resolve_spec (s : pspec) (m : memory) : res err package * memory :=
    let f := pick_fetcher s in
    match fetch_name f s with
    | Ok name =>
        let '(r, m) := fetch_packument f s m in
        ((let! p := r in let! q := get_resolution rsat canon is_any iparse default_tag at_base name s p in Ok (mkPkg name s q)), m)
    | Err e => (Err e, m)
    | Panic => (Panic, m)
    end.
  (** a sequence of resolutions with one client *)
  Fixpoint resolve_all (l : list pspec) (m : memory) : list (res err package) * memory :=
    match l with
    | [] => ([], m)
    | s :: l => let '(r, m) := resolve_spec s m in let '(rs, m) := resolve_all l m in (r :: rs, m)
    end.
End World.
