(** * Git dependencies: crates/nassun/src/fetch/git.rs [fetch_clone] and the fetchers' [tarball] *)
From Verif Require Import Base Types StdPath VersionModel FetchModel.
Set Implicit Arguments.
Open Scope string_scope.
Open Scope list_scope.

(** A remote repository, and what git does with it (external, simplified: submodules, hooks and credentials left out).
    [g_head]: its default branch; [g_other]: other ways to name a commit (hashes, ...); [g_file c path]: is there such a path in
    the commit; [g_option]: does git checkout accept the option alone? *)
Record repo (commit : Type) := mkRepo {
  g_head : string;
  g_tip : commit;
  g_branches : list (string * commit);
  g_tags : list (string * commit);
  g_other : string -> option commit;
  g_file : commit -> string -> bool;
  g_option : string -> bool }.

Definition dashed (s : string) : bool := match s with String "-" _ => true | _ => false end.

Section Git.
  Variable commit : Type.
  Variable sha : commit -> string.
  (** git clone URL *)
  Variable remote : string -> option (repo commit).
  (** node_semver Version::parse and Display, Range::satisfies. Simplified: build metadata is left out of [version]. *)
  Variable vparse : string -> option version.
  Variable vshow : version -> string.
  Variable rsat : range -> version -> bool.

  (** git checkout ARG in a fresh clone, with nothing after ARG to say what it is: an option; the local branch (the default one);
      a tag; another commit; a branch of the remote; or else files, which are restored while the commit stays *)
  Definition checkout (g : repo commit) (arg : string) : option commit :=
    if dashed arg then (if g_option g arg then Some (g_tip g) else None)
    else if String.eqb arg (g_head g) then Some (g_tip g)
    else match sget arg (g_tags g) with
    | Some c => Some c
    | None => match g_other g arg with
      | Some c => Some c
      | None => match sget arg (g_branches g) with
        | Some c => Some c
        | None => if g_file g (g_tip g) arg then Some (g_tip g) else None
        end
      end
    end.
  (** git show-ref --tags (git.rs:131-140): a line "SHA refs/tags/NAME" for each tag *)
  Definition show_ref (g : repo commit) : list string := map (fun t => (sha (snd t) ++ " refs/tags/" ++ fst t)%string) (g_tags g).
  (** git.rs:146-151: line.split('/').last() *)
  Definition last_piece (line : string) : option string := match rev (StdPath.split "/" line) with x :: _ => Some x | [] => None end.
  Definition versions (g : repo commit) : list version :=
    flat_map (fun line => match last_piece line with Some t => match vparse t with Some v => [v] | None => [] end | None => [] end) (show_ref g).

  (** GitCloneError, NoVersion, GitCheckoutError *)
  Inductive failure := CloneFailed | NoTag | CheckoutFailed.
  (** git.rs:101-191 [fetch_clone]: the commit in the work tree *)
  Definition fetch_clone (url : string) (committish : option string) (semver : option range) : res failure commit :=
    match remote url with
    | None => Err CloneFailed
    | Some g =>
        let! ref := match semver with
                    | Some r => match vmax (filter (rsat r) (versions g)) with Some v => Ok (Some (vshow v)) | None => Err NoTag end
                    | None => Ok committish
                    end in
        match ref with
        | Some a => match checkout g a with Some c => Ok c | None => Err CheckoutFailed end
        | None => Ok (g_tip g)
        end
    end.
End Git.
Arguments Ok {E A} _. Arguments Err {E A} _.

(** fetch/npm.rs:154-160, dir.rs:147-150 (unimplemented!), git.rs:270-272 (todo!) [tarball]: [download] is what the registry sends *)
Definition fetcher_tarball {A} (f : fetcher) (download : res err A) : res err A := match f with FNpm => download | FDir | FGit => Panic end.
(** package.rs:206-257 [extract_to_dir_inner] without a recorded integrity (PackageResolution::integrity is None for directories
    and git, resolver.rs:33-41): the tarball is fetched and then unpacked *)
Definition extract_spec {A} (s : pspec) (download : res err A) (unpack : A -> res err unit) : res err unit :=
  let! t := fetcher_tarball (pick_fetcher s) download in unpack t.
