(** * Linking bins: crates/node-maintainer/src/linkers/hoisted.rs [link_bins], linkers/mod.rs [mkdirp] and [link_bin],
    system call by system call, several packages at a time *)
From Verif Require Import Base Types ResolverModel ResolverProofs PathLookup Fs StdPath BinModel IsolatedModel.
Open Scope string_scope.
Open Scope list_scope.

(** one link to make (hoisted.rs:403-406): directory, name in it, and the file it should lead to *)
Record job := mkJob { j_dir : path; j_name : string; j_from : path }.
Definition j_to (j : job) : path := j_dir j ++ [j_name j].
(** mod.rs:470: the text of the link, relative to the directory it is in *)
Definition j_text (j : job) : path := diff_paths (j_from j) (j_dir j).

(** the mkdir cache (a DashSet of paths) *)
Definition cached (c : list path) (p : path) : bool := existsb (fun q => if path_eq_dec q p then true else false) c.
(** Path::ancestors, the path itself included, up to and including the project root *)
Fixpoint ancestors (p : path) : list path := match p with [] => [[]] | x :: t => [] :: map (cons x) (ancestors t) end.
Definition is_dir (f : fs) (p : path) : bool := match p with [] => true | _ => match f p with Some EDir => true | _ => false end end.
Definition exists_ (f : fs) (p : path) : bool := match f p with Some _ => true | None => false end.
(** std::fs::create_dir: the directory must not exist yet and its parent must *)
Definition create_dir (f : fs) (p : path) : option fs :=
  if exists_ f p then None else if is_dir f (removelast p) then Some (put p EDir f) else None.
(** std::fs::create_dir_all: fine if it exists; fails if a file is in the way *)
Definition in_the_way (f : fs) (p : path) : bool :=
  existsb (fun q => match q with [] => false | _ => match f q with None | Some EDir => false | _ => true end end) (ancestors p).
Definition create_dir_all (f : fs) (p : path) : option fs := if in_the_way f p then None else Some (put p EDir f).
(** std::fs::remove_dir_all (simplification: in one step), std::fs::remove_file, std::os::unix::fs::symlink *)
Definition remove_tree (f : fs) (p : path) : fs := fun q => if prefixb p q then None else f q.
Definition remove_dir_all (f : fs) (p : path) : option fs := match f p with Some EDir => Some (remove_tree f p) | _ => None end.
Definition remove_file (f : fs) (p : path) : option fs :=
  match f p with Some (EFile _) | Some (ELink _) => Some (fun q => if path_eq_dec q p then None else f q) | _ => None end.
Definition symlink (f : fs) (t : path) (p : path) : option fs :=
  if exists_ f p then None else if is_dir f (removelast p) then Some (fun q => if path_eq_dec q p then Some (ELink t) else f q) else None.

(** where a blocking task is: hoisted.rs:412-443, mod.rs:444-514 (mkdirp inlined at line 416, link_bin at 437) *)
Inductive pc :=
| AtFrom        (* hoisted.rs:415 from.symlink_metadata() *)
| AtCache       (* mod.rs:487 cache.contains(path) *)
| AtParent      (* mod.rs:488-492 cache.contains(parent) *)
| AtMk          (* mod.rs:494 create_dir *)
| AtIns         (* mod.rs:500 cache.insert *)
| AtMkAll       (* mod.rs:502 create_dir_all *)
| AtInsAll      (* mod.rs:508-510 *)
| AtTo          (* hoisted.rs:418 to.symlink_metadata() *)
| AtRmDir       (* hoisted.rs:420 *)
| AtRmFile      (* hoisted.rs:428 *)
| AtChmod       (* mod.rs:456-469 from.metadata(), set_permissions(755); modes are not part of [fs] *)
| AtLink.       (* mod.rs:471 symlink *)
Inductive tres := Go (f : fs) (c : list path) (p : pc) | Next (f : fs) (c : list path) | Fail.
Definition go (o : option fs) (c : list path) (p : pc) : tres := match o with Some f => Go f c p | None => Fail end.
(** one system call. Simplification: nothing on the way to [j_from] is a link, and [j_from] itself is not a link
    (extraction makes none). *)
Definition tstep (f : fs) (c : list path) (j : job) (p : pc) : tres :=
  match p with
  | AtFrom => if exists_ f (j_from j) then Go f c AtCache else Next f c
  | AtCache => if cached c (j_dir j) then Go f c AtTo else Go f c AtParent
  | AtParent => if cached c (removelast (j_dir j)) then Go f c AtMk else Go f c AtMkAll
  | AtMk => go (create_dir f (j_dir j)) c AtIns
  | AtIns => Go f (j_dir j :: c) AtTo
  | AtMkAll => go (create_dir_all f (j_dir j)) c AtInsAll
  | AtInsAll => Go f (ancestors (j_dir j) ++ c) AtTo
  | AtTo => match f (j_to j) with None => Go f c AtChmod | Some EDir => Go f c AtRmDir | Some _ => Go f c AtRmFile end
  | AtRmDir => go (remove_dir_all f (j_to j)) c AtChmod
  | AtRmFile => go (remove_file f (j_to j)) c AtChmod
  | AtChmod => if exists_ f (j_from j) then Go f c AtLink else Fail
  | AtLink => match symlink f (j_text j) (j_to j) with Some f' => Next f' c | None => Fail end
  end.

(** hoisted.rs:378-447: the packages to do, in the order of the hash set; at most [conc] at a time (0: no limit), each doing
    its bins one after the other *)
Record lw := mkL { l_fs : fs; l_cache : list path; l_wait : list (list job); l_live : list (list job * pc) }.
Section Run.
  Variable conc : nat.
  Inductive lstep : lw -> lw -> Prop :=
  | l_start f c js wait live : conc = 0 \/ List.length live < conc ->
      lstep (mkL f c (js :: wait) live) (mkL f c wait ((js, AtFrom) :: live))
  | l_end f c wait l1 l2 p : lstep (mkL f c wait (l1 ++ ([], p) :: l2)) (mkL f c wait (l1 ++ l2))
  | l_go f c wait l1 l2 j js p f' c' p' : tstep f c j p = Go f' c' p' ->
      lstep (mkL f c wait (l1 ++ (j :: js, p) :: l2)) (mkL f' c' wait (l1 ++ (j :: js, p') :: l2))
  | l_next f c wait l1 l2 j js p f' c' : tstep f c j p = Next f' c' ->
      lstep (mkL f c wait (l1 ++ (j :: js, p) :: l2)) (mkL f' c' wait (l1 ++ (js, AtFrom) :: l2)).
  Inductive lsteps (w : lw) : lw -> Prop :=
  | ls_refl : lsteps w w
  | ls_step w1 w2 : lsteps w w1 -> lstep w1 w2 -> lsteps w w2.
  (** a system call fails: the whole apply returns an error *)
  Definition fails (w : lw) : Prop := exists l1 l2 j js p, l_live w = l1 ++ (j :: js, p) :: l2 /\ tstep (l_fs w) (l_cache w) j p = Fail.
  Definition over (w : lw) : Prop := l_wait w = [] /\ l_live w = [].
End Run.

(** hoisted.rs:363-377: node_modules/.bin is removed first. Simplification: a directory node_modules/node_modules, in which
    the walk would look for another .bin, is not considered. *)
Definition unbin (f : fs) : fs := remove_tree f ["node_modules"; ".bin"].
(** the linker's cache at that point: extract() did [mkdirp] of node_modules (hoisted.rs:254) with an empty cache *)
Definition first_cache : list path := ancestors ["node_modules"].

Section Packages.
  (** the bins of a package: [normalize] (BinModel) of its package.json *)
  Variable bins : resolution -> list (string * list comp).
  (** hoisted.rs:404 package_dir.join(path): [walk_from] (StdPath) follows its components, ".." included *)
  Definition source_path (d : path) (b : string * list comp) : path :=
    match walk_from [] (snd (bin_link d b)) with Some p => p | None => [] end.
  Definition pkg_bins (g : graph) (i : nat) : list (string * list comp) :=
    match getn g i with Some n => bins (pk_resolved (n_pkg n)) | None => [] end.
  Definition pkg_jobs (g : graph) (i : nat) : list job :=
    let d := disk (node_path g i) in
    map (fun b => mkJob (hoisted_bin_dir d) (fst b) (source_path d b)) (pkg_bins g i).
  (** does package.json have an install script (hoisted.rs:319-322) *)
  Variable scripted : resolution -> bool.
  (** hoisted.rs:299-326: the packages to rebuild are those whose directory did not exist when extraction came to them, if
      they have an install script or a bin. [f] is the file system after pruning. Simplification: extraction of another
      package does not create the directory before that (it could only be one inside it, which comes later). *)
  Definition pending (g : graph) (f : fs) : list nat :=
    filter (fun i => negb (exists_ f (disk (node_path g i)))
                     && (match getn g i with Some n => scripted (pk_resolved (n_pkg n)) | None => false end
                         || match pkg_bins g i with [] => false | _ => true end))
           (seq 1 (size g - 1)).
  (** hoisted.rs:359-450 for the packages [l] of [g] (the pending ones, in hash set order) *)
  Definition link_start (g : graph) (l : list nat) (f : fs) (c : list path) : lw :=
    mkL (unbin f) c (map (pkg_jobs g) l) [].
End Packages.
