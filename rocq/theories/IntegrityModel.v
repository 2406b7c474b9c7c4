(** * A package's recorded integrity and its extraction *)
From Verif Require Import Base Types StdPath Fs TarModel.
Open Scope string_scope.
Open Scope list_scope.

(** crates/nassun/src/resolver.rs:33-41 [PackageResolution::integrity] *)
Definition integrity_of (r : resolution) : option string := match r with RNpm _ _ _ i => i | RDir _ _ => None | RGit _ _ => None end.

Section Install.
  Variable check : string -> string -> bool.
  Variable limit : nat.
  Variable xxh : string -> string.
  Variables linkable reflinkable : bool.
  Variable blob_mode : nat.
  Variable untar : string -> list entry * bool.
  Variable manifest : string -> option (bool * list string).
  (** crates/nassun/src/package.rs:158-169 [Package::extract_to_dir], as the linkers call it (crates/node-maintainer/src/linkers/hoisted.rs:302-306,
      isolated.rs:407-411; they only do so if the directory does not exist, and ignore the integrity that comes back). [fetch]: the stream for the
      tarball of this resolution, whatever sent it; packages of the registry only (directories and git repositories are not tarballs) *)
  Definition extract_package (fetch : resolution -> option (list event)) (order : tindex -> list (string * (string * nat)))
      (p : package) (dir : path) (cached : bool) (x : xmode) : op string :=
    extract_to_dir check limit xxh linkable reflinkable blob_mode untar manifest (fetch (pk_resolved p)) order dir (integrity_of (pk_resolved p)) cached x.
End Install.
