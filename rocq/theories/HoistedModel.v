(** * The hoisted linker: crates/node-maintainer/src/linkers/hoisted.rs *)
From Verif Require Import Base Types ResolverModel ResolverProofs LockfileModel PathLookup Fs.
Open Scope string_scope.
Open Scope list_scope.

(** maintainer.rs:27-28 [META_FILE_NAME], [STORE_DIR_NAME] *)
Definition meta_name : string := ".orogene-meta.kdl".
Definition store_name : string := ".oro-store".

Section Hoisted.
  Variable requested : pspec -> string.
  Variable gitshow : gitinfo -> string.
  (** the files a package consists of, as extraction writes them: path below the package directory, and bytes *)
  Variable contents : resolution -> list (path * string).
  Notation node_lnode := (node_lnode requested gitshow).

  (** hoisted.rs:150-182: the package directory [sub] (below node_modules) is in the previous tree, in the new tree, and
      the two lockfile entries are equal *)
  Definition keeps (actual : list (string * lnode)) (g : graph) (sub : path) : bool :=
    match aget ueqb (join "/" sub) actual, node_at_path g sub with
    | Some a, Some i => match node_lnode g i false with Ok ideal => lnode_eqb a ideal | _ => false end
    | _, _ => false
    end.
  (** hoisted.rs:124-143: names the walk passes through without deleting: node_modules, @scope *)
  Definition special (x : string) : bool := String.eqb x "node_modules" || starts_at x.
  (** hoisted.rs:114-232: the entries deleted when there is a previous tree. The walk goes down only through [special]
      directories; it deletes the other entries of a node_modules directory, except .bin (137-139), the metadata file
      (121-124) and what [keeps] keeps. Simplification: the delayed evaluation of the filter is not modelled, it reads
      nothing that the deletions change. *)
  Definition doomed_old (actual : list (string * lnode)) (g : graph) (q : path) : bool :=
    match q with
    | nm :: sub =>
        String.eqb nm "node_modules" &&
        match rev sub with
        | x :: rc => forallb special rc && match rc with [] => true | y :: _ => String.eqb y "node_modules" end
                     && negb (special x) && negb (String.eqb x ".bin")
                     && negb (match rc with [] => String.eqb x meta_name | _ => false end)
                     && negb (keeps actual g sub)
        | [] => false
        end
    | [] => false
    end.
  (** hoisted.rs:50-106: without a trusted previous tree every entry of node_modules is deleted *)
  Definition doomed_all (q : path) : bool := match q with [nm; _] => String.eqb nm "node_modules" | _ => false end.
  (** hoisted.rs:50-54: no previous tree, or the store of the other linker is there *)
  Definition wipes (f : fs) (actual : option (list (string * lnode))) : bool :=
    match actual with None => true | Some _ => match f ["node_modules"; store_name] with Some _ => true | None => false end end.
  Definition doomed (f : fs) (actual : option (list (string * lnode))) (g : graph) : path -> bool :=
    if wipes f actual then doomed_all
    else match actual with Some a => doomed_old a g | None => doomed_all end.

  (** hoisted.rs:289-326: package [i] goes to its directory, if that does not exist yet *)
  Definition package_files (g : graph) (i : nat) : list (path * string) :=
    match getn g i with Some n => contents (pk_resolved (n_pkg n)) | None => [] end.
  Definition hinst (g : graph) (i : nat) : inst :=
    let d := disk (node_path g i) in
    mkInst (Some d) ((d, EDir) :: map (fun e => (d ++ fst e, EFile (snd e))) (package_files g i)) [].
  (** hoisted.rs:242-345: node_modules itself (line 254), then the packages in graph order *)
  Definition hinsts (g : graph) : list inst :=
    mkInst None [] [(["node_modules"], EDir)] :: map (hinst g) (seq 1 (size g - 1)).

  (** one apply of tree [g] (hoisted.rs [prune] then [extract]) from file system [f] and metadata [m] *)
  Definition hsteps (f : fs) (m : option (list (string * lnode))) (g : graph) (lock : list (string * lnode)) : world _ -> Prop :=
    wsteps _ (doomed f m g) (wipes f m) (hinsts g) lock (mkW _ f m (Pruning)).
End Hoisted.
