(** * Packages and extraction: what is meant. Independent of how extraction works. *)
From Verif Require Import Base Types StdPath Fs TarModel.
Open Scope string_scope.
Open Scope list_scope.

(** contents and mode of the file at an absolute path *)
Definition file_at (s : st) (p : path) : option (string * nat) := match s_file s p with Some i => nth_error (s_inodes s) i | None => None end.
Definition contents_at (s : st) (p : path) : option string := option_map fst (file_at s p).
(** the names after the first one of a path in an archive ("package/lib/x.js" is lib, x.js) *)
Definition inner_path (p : string) : path := filter (fun x => negb (String.eqb x "" || String.eqb x ".")) (tl (StdPath.split "/" p)).
(** the files of a package: its regular entries; npm's extractors make them readable and writable for the owner *)
Definition package_files (es : list entry) : list (path * (string * nat)) :=
  flat_map (fun e => if e_regular e then match e_data e with Some c => [(inner_path (e_path e), (c, Nat.lor (match e_mode e with Some m => m | None => 420 end) 384))] | None => [] end else []) es.
Definition peqb (p q : path) : bool := if path_eq_dec p q then true else false.
Definition file_of (es : list entry) (q : path) : option (string * nat) := aget peqb q (package_files es).
(** an archive whose regular entries have distinct paths that stay inside *)
Definition inside (p : string) : Prop := ~ In ".." (inner_path p).
Definition proper (es : list entry) : Prop :=
  Forall (fun e => e_regular e = true -> inside (e_path e)) es /\ NoDup (map fst (package_files es)).
(** no two different contents among these have the same cache hash *)
Definition no_collision (xxh : string -> string) (l : list string) : Prop := forall a b, In a l -> In b l -> xxh a = xxh b -> a = b.
Definition contents_of (es : list entry) : list string := map (fun f => fst (snd f)) (package_files es).
(** nothing is below the destination (the directory itself may exist) *)
Definition vacant (d : path) (s : st) : Prop := forall q, prefix d q -> s_file s q = None /\ (s_dir s q = true -> q = d).
(** names and cache entries lead to inodes that exist *)
Definition well_formed (s : st) : Prop :=
  (forall q i, s_file s q = Some i -> i < List.length (s_inodes s)) /\ (forall h i, s_blob s h = Some i -> i < List.length (s_inodes s)).
(** the package's files, and nothing else, are below the destination *)
Definition holds_package (d : path) (es : list entry) (s : st) : Prop := forall q, contents_at s (d ++ q) = option_map fst (file_of es q).
(** directories below the destination: those leading to files of the package *)
Definition holds_dirs (d : path) (es : list entry) (s : st) : Prop :=
  forall q, q <> [] -> (s_dir s (d ++ q) = true <-> exists f, In f (package_files es) /\ prefix q (removelast (fst f))).
(** ** everything outside a directory is as it was *)
Record confined (d : path) (s s' : st) : Prop := mkConfined {
  cf_file : forall q, ~ prefix d q -> file_at s' q = file_at s q;
  cf_inode : forall i v, nth_error (s_inodes s) i = Some v -> nth_error (s_inodes s') i = Some v;
  cf_dir : forall q, s_dir s' q = true -> s_dir s q = true \/ prefix q d \/ prefix d q;
  cf_keep : forall q, s_dir s q = true -> s_dir s' q = true }.
(** what the cache keeps under a content hash *)
Definition cached_at (s : st) (h : string) : option (string * nat) := match s_blob s h with Some i => nth_error (s_inodes s) i | None => None end.
(** the cache still has what it had for this package *)
Definition cache_kept (xxh : string -> string) (k : string) (es : list entry) (s s' : st) : Prop :=
  s_index s' (tarball_key k) = s_index s (tarball_key k) /\ forall c, In c (contents_of es) -> cached_at s' (xxh c) = cached_at s (xxh c).
(** a place that packages can be extracted to: a path without files on the way, with nothing below *)
Definition free_place (d : path) (s : st) : Prop := d <> [] /\ vacant d s /\ forall q, q <> [] -> prefix q d -> s_file s q = None.
(** no path of the package is empty or leads through another file of the package *)
Definition coherent (es : list entry) : Prop :=
  (forall f, In f (package_files es) -> fst f <> []) /\
  (forall f g, In f (package_files es) -> In g (package_files es) -> prefix (fst f) (fst g) -> fst f = fst g).

(** names of a relative path; a relative path that leads below where it starts; one written the plain way *)
Definition rel_names (p : string) : path := filter (fun x => negb (String.eqb x "" || String.eqb x ".")) (StdPath.split "/" p).
Definition rel_inside (p : string) : Prop := ~ In ".." (StdPath.split "/" p).
Definition plainly (l : list string) : Prop := Forall (fun x => x <> "" /\ x <> ".") l.
(** the manifest of a package: package.json, as [manifest] reads it (install scripts?, bin paths) *)
Definition manifest_of (manifest : string -> option (bool * list string)) (es : list entry) : option (bool * list string) :=
  match file_of es ["package.json"] with Some (c, _) => manifest c | None => None end.
Definition bins_of manifest es : list string := match manifest_of manifest es with Some (_, b) => b | None => [] end.
Definition scripts_of manifest es : bool := match manifest_of manifest es with Some (b, _) => b | None => false end.
(** an archive that reads to its end; a package whose manifest (if there is one) can be read and whose bins are files of it *)
Definition intact (untar : string -> list entry * bool) (bytes : string) : Prop := snd (untar bytes) = true /\ Forall (fun e => e_data e <> None) (fst (untar bytes)).
Definition usable (manifest : string -> option (bool * list string)) (es : list entry) : Prop :=
  (manifest_of manifest es = None -> file_of es ["package.json"] = None) /\
  Forall (fun b => rel_inside b /\ exists f, In f (package_files es) /\ rel_names b = fst f) (bins_of manifest es).
(** a file shares its storage with a content file of the cache *)
Definition shared (s : st) (q : path) : Prop := exists h i, s_file s q = Some i /\ s_blob s h = Some i.
