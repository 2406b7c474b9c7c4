(** * Bins with the isolated linker: crates/node-maintainer/src/linkers/isolated.rs:479-491 [link_bins] and 561-632 [link_dep_bins],
    with linkers/mod.rs:444-514 [link_bin] and [mkdirp].  Unlike the hoisted linker's, the loop does one link at a time. *)
From Verif Require Import Base Types Kdl ResolverModel ResolverProofs LockfileModel PathLookup Fs StdPath BinModel HoistedModel IsolatedModel BinLinkModel.
Open Scope string_scope.
Open Scope list_scope.

(** Linux path resolution (path_resolution(7)): from the directory [d], component by component; at most [k] links are followed;
    [last]: also a link at the very end. Simplification: links with an absolute text, and paths that leave the project, are not followed. *)
Fixpoint lookup (f : fs) (k : nat) : bool -> path -> path -> option path :=
  fix go (last : bool) (d r : path) {struct r} : option path :=
    match r with
    | [] => Some d
    | c :: r' =>
        if negb (is_dir f d) then None
        else if String.eqb c ".." then match d with [] => None | _ => go last (removelast d) r' end
        else match f (d ++ [c]) with
             | None => None
             | Some (ELink t) =>
                 if (match r' with [] => negb last | _ => false end) then Some (d ++ [c])
                 else match k with 0 => None | Datatypes.S k' => lookup f k' last d (t ++ r') end
             | Some _ => go last (d ++ [c]) r'
             end
    end.
(** the limit of the kernel *)
Definition max_links : nat := 40.

(** mod.rs:483-514 [mkdirp], with its cache *)
Definition mkdirp (f : fs) (c : list path) (d : path) : option (fs * list path) :=
  if cached c d then Some (f, c)
  else if cached c (removelast d) then option_map (fun f' => (f', d :: c)) (create_dir f d)
  else option_map (fun f' => (f', ancestors d ++ c)) (create_dir_all f d).

(** the text of a component *)
Definition comp_text (c : comp) : list string := match c with CNormal s => [s] | CParent => [".."] | _ => [] end.
(** isolated.rs:592: the file a bin is taken to be: <dependent>/node_modules/<name of the bin>/<its path> *)
Definition bin_from (nm : path) (b : string * list comp) : path := nm ++ fst b :: flat_map comp_text (snd b).
Definition bin_to (nm : path) (n : string) : path := nm ++ [".bin"; n].

(** isolated.rs:591-628: one bin, for one dependent whose node_modules is [nm]; [None]: an error, which ends the apply.
    597 symlink_metadata of the file; 598-599 mkdirp; 600-616 what is there already; mod.rs:456-469 metadata and permissions (modes are not
    modelled); mod.rs:470-471 the link. *)
Definition link_one (nm : path) (b : string * list comp) (s : fs * list path) : option (fs * list path) :=
  let (f, c) := s in
  let from := bin_from nm b in
  let to := bin_to nm (fst b) in
  match lookup f max_links false [] from with
  | None => Some s
  | Some _ =>
      obind (mkdirp f c (nm ++ [".bin"])) (fun s1 =>
      obind (match fst s1 to with None => Some (fst s1) | Some EDir => remove_dir_all (fst s1) to | Some _ => remove_file (fst s1) to end) (fun f2 =>
      obind (lookup f2 max_links true [] from) (fun _ =>
      option_map (fun f3 => (f3, snd s1)) (symlink f2 (diff_paths from (nm ++ [".bin"])) to))))
  end.

Section IsoBins.
  Variable hex8 : string -> string.
  (** the bins of a package: [normalize] (BinModel) of its package.json *)
  Variable bins : resolution -> list (string * list comp).

  Definition bins_of (g : graph) (i : nat) : list (string * list comp) := match getn g i with Some n => bins (pk_resolved (n_pkg n)) | None => [] end.
  (** isolated.rs:579: the packages that depend on [c]: petgraph [edges_directed(Incoming)] lists the newest edge first *)
  Definition dependents (g : graph) (c : nat) : list nat := map e_from (filter (fun e => Nat.eqb (e_to e) c) (rev (g_edges g))).
  (** isolated.rs:571-631: what [link_dep_bins] does for package [c], in order. Simplification: reading package.json again gives what
      extraction read. *)
  Definition bin_jobs (g : graph) (c : nat) : list (nat * (string * list comp)) :=
    if Nat.eqb c 0 then [] else flat_map (fun i => map (fun b => (i, b)) (bins_of g c)) (dependents g c).
  (** isolated.rs:479-491: [pend] is the list of packages with bins extracted by this apply, in the order they are popped *)
  Definition link_bins (g : graph) (pend : list nat) (s : fs * list path) : option (fs * list path) :=
    fold_left (fun o j => obind o (link_one (nm_dir hex8 g (fst j)) (snd j))) (flat_map (bin_jobs g) pend) (Some s).
End IsoBins.
