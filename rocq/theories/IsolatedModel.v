(** * The isolated linker: crates/node-maintainer/src/linkers/isolated.rs *)
From Verif Require Import Base Types ResolverModel ResolverProofs LockfileModel PathLookup Fs FsPad HoistedModel.
Open Scope string_scope.
Open Scope list_scope.

(** external crate pathdiff 0.2.1, [diff_paths(path, base)] for two absolute paths without "." and "..": drop the common
    part, one ".." for each component left of [base], then what is left of [path] *)
Fixpoint diff_paths (p base : path) : path :=
  match p, base with
  | x :: p', y :: base' => if String.eqb x y then diff_paths p' base' else map (fun _ => "..") base ++ p
  | _, _ => map (fun _ => "..") base ++ p
  end.

Section Isolated.
  (** external: the first 8 hexadecimal digits of the SHA-256 of a text (ssri [Integrity::from(..).to_hex()], truncated) *)
  Variable hex8 : string -> string.
  (** the absolute path of the project *)
  Variable root : path.
  (** as in HoistedModel *)
  Variable contents : resolution -> list (path * string).

  Definition pkg_name (g : graph) (i : nat) : string := match getn g i with Some n => pk_name (n_pkg n) | None => "" end.
  (** isolated.rs:635-645 [package_dir_name]: node name, "@", hash of the path of the package in the logical tree
      (graph.rs:311-317 [node_path_string]) *)
  Definition dir_name (g : graph) (i : nat) : string := (name_of g i ++ "@" ++ hex8 (path_key (node_path g i)))%string.
  (** isolated.rs:110, 341: node_modules/.oro-store/<dir name> *)
  Definition store_dir (g : graph) (i : nat) : path := "node_modules" :: store_name :: comps (dir_name g i).
  (** isolated.rs:393-396, 493-504 [package_dir]: where the files of the package go *)
  Definition pkg_dir (g : graph) (i : nat) : path := store_dir g i ++ "node_modules" :: comps (pkg_name g i).
  (** isolated.rs:122-130, 382, 431-436: the node_modules directory in which the package finds its dependencies *)
  Definition nm_dir (g : graph) (i : nat) : path := if Nat.eqb i 0 then ["node_modules"] else pkg_dir g i ++ ["node_modules"].
  (** the packages that [i] depends on: petgraph [edges_directed(Outgoing)] lists the newest edge first *)
  Definition targets (g : graph) (i : nat) : list nat := map e_to (filter (fun e => Nat.eqb (e_from e) i) (rev (g_edges g))).
  (** isolated.rs:506-559 [link_deps]: for each dependency a symbolic link with a relative target, unless something is
      there already. The link is given by the components of its text. *)
  Definition link_to (g : graph) (i c : nat) : item :=
    let entry := nm_dir g i ++ comps (pkg_name g c) in (entry, ELink (diff_paths (pkg_dir g c) (removelast entry))).
  Definition dep_links (g : graph) (i : nat) : list item := map (link_to g i) (targets g i).

  (** isolated.rs:389-436: extraction into the package directory unless that exists, then its links *)
  Definition iinst (g : graph) (i : nat) : inst :=
    let d := pkg_dir g i in
    mkInst (Some d) ((d, EDir) :: map (fun e => (d ++ fst e, EFile (snd e))) (package_files contents g i)) (dep_links g i).
  (** isolated.rs:354 node_modules itself; 381-385 the links of the project; then the packages in graph order *)
  Definition iinsts (g : graph) : list inst :=
    mkInst None [] [(["node_modules"], EDir)] :: mkInst None [] (dep_links g 0) :: map (iinst g) (seq 1 (size g - 1)).

  Definition pathb (p q : path) : bool := if path_eq_dec p q then true else false.
  (** isolated.rs:104-115: the store directories of the new tree *)
  Definition expected (g : graph) (q : path) : bool := existsb (fun i => pathb (store_dir g i) q) (seq 1 (size g - 1)).
  (** isolated.rs:117-222: in the node_modules of each package of the new tree, an entry (read_dir: one component) where a
      dependency link should go is deleted, unless it is a link with exactly the absolute path as its text. Other entries
      stay. *)
  Definition stale (f : fs) (g : graph) (q : path) : bool :=
    existsb (fun e => pathb q (nm_dir g (e_from e) ++ comps (pkg_name g (e_to e)))
                      && match comps (pkg_name g (e_to e)) with [_] => true | _ => false end
                      && match f q with Some (ELink t) => negb (pathb t (root ++ pkg_dir g (e_to e))) | _ => true end) (g_edges g).
  (** isolated.rs:228-318: entries of the store that are not expected; a directory @scope is looked into instead *)
  Definition extraneous (f : fs) (g : graph) (q : path) : bool :=
    match q with
    | [nm; st; x] => String.eqb nm "node_modules" && String.eqb st store_name && negb (expected g q)
                     && negb (starts_at x && match f q with Some EDir => true | _ => false end)
    | [nm; st; x; y] => String.eqb nm "node_modules" && String.eqb st store_name && negb (expected g q)
                     && starts_at x && negb (expected g [nm; st; x]) && match f [nm; st; x] with Some EDir => true | _ => false end
    | _ => false
    end.
  (** isolated.rs:52-53: no previous tree, or no store *)
  Definition iwipes (f : fs) {A} (actual : option A) : bool :=
    match actual with None => true | Some _ => match f ["node_modules"; store_name] with Some _ => false | None => true end end.
  (** isolated.rs:38-336 [prune]. Unlike the hoisted linker it does not look at what the previous tree was. *)
  Definition idoomed (f : fs) {A} (actual : option A) (g : graph) (q : path) : bool :=
    if iwipes f actual then doomed_all q else stale f g q || extraneous f g q.

  (** one apply of tree [g]: [prune] then [extract]. The directory of each link is made first (isolated.rs:534-536): [pad].
      Simplification: [mkdirp] is taken to succeed whenever nothing but directories is in the way, as create_dir_all would;
      the cache it uses, and when it fails because of that, are in IsoMkdirModel, whose runs are runs of this machine. *)
  Definition isteps {A} (f : fs) (m : option A) (g : graph) (lock : A) : world _ -> Prop :=
    wsteps _ (idoomed f m g) (iwipes f m) (map pad (iinsts g)) lock (mkW _ f m Pruning).
End Isolated.
