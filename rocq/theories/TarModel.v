(** * Package tarballs and the local cache: crates/nassun/src/tarball.rs, crates/nassun/src/package.rs (Unix, not wasm) *)
From Verif Require Import Base Types StdPath Fs.
Open Scope string_scope.
Open Scope list_scope.

(** ** the stream *)
(** what successive reads of the network stream give: some bytes, or an I/O error; after the last element, and at an empty chunk,
    the stream is at its end *)
Inductive event := Chunk (s : string) | Broken.
(** tarball.rs:42-47 [Tarball]: an optional integrity checker and what it has been fed *)
Definition checker := option (string * string).
Section Stream.
  (** ssri: the integrity (given as text) matches these bytes; [IntegrityChecker::input] accumulates *)
  Variable check : string -> string -> bool.
  (** MAX_IN_MEMORY_TARBALL_SIZE, tarball.rs:39-40 (5 MiB); everything below holds for any limit *)
  Variable limit : nat.
  Definition feed (c : checker) (s : string) : checker := match c with Some (sri, seen) => Some (sri, (seen ++ s)%string) | None => None end.
  (** tarball.rs:163-192 [poll_read], once ready *)
  Definition poll_read (c : checker) (ev : list event) : res err (string * checker * list event) :=
    match ev with
    | Broken :: _ => Err EIo
    | Chunk (String a s) :: t => Ok (String a s, feed c (String a s), t)
    | _ => match c with
           | Some (sri, seen) => if check sri seen then Ok ("", None, tl ev) else Err EIntegrity
           | None => Ok ("", None, tl ev)
           end
    end.
  (** tarball.rs:195-199 [TempTarball] *)
  Inductive temp := TFile (s : string) | TMemory (s : string).
  Definition temp_bytes (t : temp) : string := match t with TFile s => s | TMemory s => s end.
  (** tarball.rs:108-127: the loop that goes on writing to the temporary file *)
  Fixpoint spill_loop (fuel : nat) (c : checker) (ev : list event) (file : string) : res err temp :=
    match fuel with
    | 0 => Err EIo
    | S fuel =>
        let! (s, c, ev) := poll_read c ev in
        if Nat.eqb (String.length s) 0 then Ok (TFile file) else spill_loop fuel c ev (file ++ s)
    end.
  (** tarball.rs:86-133 [into_temp]; writing the temporary file is assumed to succeed *)
  Fixpoint temp_loop (fuel : nat) (c : checker) (ev : list event) (vec : string) : res err temp :=
    match fuel with
    | 0 => Err EIo
    | S fuel =>
        let! (s, c, ev) := poll_read c ev in
        if Nat.eqb (String.length s) 0 then Ok (TMemory vec)
        else if Nat.ltb limit (String.length vec + String.length s) then spill_loop fuel c ev (vec ++ s)
        else temp_loop fuel c ev (vec ++ s)
    end.
  (** one read per event and one for the end *)
  Definition into_temp (c : checker) (ev : list event) : res err temp := temp_loop (S (List.length ev)) c ev "".
End Stream.

(** ** the file system and the cache *)
(** tarball.rs:416-420 [TarballIndex]: the files by path, with content hash and mode (a HashMap) *)
Record tindex := mkIdx { x_copy : bool; x_bins : list string; x_files : list (string * (string * nat)) }.
(** files are names for inodes, so that hard links can be told from copies. [s_dir], [s_file]: what an absolute path is;
    [s_inodes]: contents and mode; [s_blob]: the content files of the cache by hash; [s_index]: the cache index by key
    ([None] inside: metadata that does not decode) *)
Record st := mkSt {
  s_dir : path -> bool;
  s_file : path -> option nat;
  s_inodes : list (string * nat);
  s_blob : string -> option nat;
  s_index : string -> option (option tindex) }.
Definition upd {A} (k : path) (v : A) (f : path -> A) : path -> A := fun q => if path_eq_dec q k then v else f q.
Definition supd {A} (k : string) (v : A) (f : string -> A) : string -> A := fun q => if String.eqb q k then v else f q.
Definition set_dir p s := mkSt (upd p true (s_dir s)) (s_file s) (s_inodes s) (s_blob s) (s_index s).
Definition set_file p o s := mkSt (s_dir s) (upd p o (s_file s)) (s_inodes s) (s_blob s) (s_index s).
Definition set_inodes l s := mkSt (s_dir s) (s_file s) l (s_blob s) (s_index s).
Definition set_blob h o s := mkSt (s_dir s) (s_file s) (s_inodes s) (supd h o (s_blob s)) (s_index s).
Definition set_index k o s := mkSt (s_dir s) (s_file s) (s_inodes s) (s_blob s) (supd k o (s_index s)).
Definition exists_at (s : st) (p : path) : bool := s_dir s p || is_some (s_file s p).
Definition new_inode (c : string) (m : nat) (s : st) : nat * st := (List.length (s_inodes s), set_inodes (s_inodes s ++ [(c, m)]) s).

(** paths given to the system: the destination directory (absolute, ordinary components) and then the components of a relative path *)
Definition spath := list comp.
(** where the system ends up, there being no symbolic links below the destination; "/.." is "/" *)
Fixpoint resolve_from (stack : list string) (l : spath) : path :=
  match l with
  | [] => rev stack
  | CNormal x :: t => resolve_from (x :: stack) t
  | CParent :: t => resolve_from (tl stack) t
  | (CRoot | CCur) :: t => resolve_from stack t
  end.
Definition resolve (l : spath) : path := resolve_from [] l.
Definition at_dir (dir : path) (rel : string) : spath := map CNormal dir ++ body rel.
Definition sparent (p : spath) : spath := removelast p.
Definition parent_ok (s : st) (p : path) : bool := match p with [] => false | _ => s_dir s (removelast p) end.

(** std::fs::create_dir *)
Definition create_dir (p : spath) (s : st) : res err unit * st :=
  let q := resolve p in
  if negb (exists_at s q) && parent_ok s q then (Ok tt, set_dir q s) else (Err EIo, s).
(** std::fs::create_dir_all: every prefix, shortest first *)
Fixpoint create_all_from (done : spath) (l : spath) (s : st) : res err unit * st :=
  match l with
  | [] => (Ok tt, s)
  | c :: t =>
      let q := resolve (done ++ [c]) in
      if s_dir s q then create_all_from (done ++ [c]) t s
      else if exists_at s q then (Err EIo, s)
      else create_all_from (done ++ [c]) t (set_dir q s)
  end.
Definition create_dir_all (p : spath) (s : st) : res err unit * st := create_all_from [] p s.
(** Path equality: componentwise *)
Fixpoint spath_eqb (a b : spath) : bool :=
  match a, b with [], [] => true | x :: a, y :: b => comp_eqb x y && spath_eqb a b | _, _ => false end.
Definition known (p : spath) (created : list spath) : bool := existsb (spath_eqb p) created.
Fixpoint prefixes (p : spath) : list spath := match p with [] => [[]] | c :: t => [] :: map (cons c) (prefixes t) end.
(** tarball.rs:527-563 [mkdirp], with its set of directories already made; the root has no parent *)
Definition mkdirp (p : spath) (created : list spath) (s : st) : res err (list spath) * st :=
  if known p created then (Ok created, s)
  else if match p with [] => true | _ => known (sparent p) created end then
    match create_dir p s with (Ok _, s) => (Ok (p :: created), s) | (Err e, s) => (Err e, s) | (Panic, s) => (Panic, s) end
  else
    match create_dir_all p s with (Ok _, s) => (Ok (prefixes p ++ created), s) | (Err e, s) => (Err e, s) | (Panic, s) => (Panic, s) end.

(** package.rs:22-44 [ExtractMode], [is_copy] *)
Inductive xmode := Auto | XCopy | Reflink | AutoHardlink | Hardlink.
Definition is_copy (m : xmode) : bool := match m with XCopy | Auto | Reflink => true | _ => false end.

(** a tarball entry: the path in its header and, when the header cannot hold it, the long path of the extension record before it;
    [e_data]: [None] if reading it fails *)
Record entry := mkEntry { e_path : string; e_long : option string; e_mode : option nat; e_regular : bool; e_data : option string }.
(** 0o644, 0o600, 0o111 *)
Definition m644 := 420. Definition m600 := 384. Definition m111 := 73.

Section Extract.
  Variable check : string -> string -> bool.
  Variable limit : nat.
  (** the content hash used by the cache (xxh3), as text *)
  Variable xxh : string -> string.
  (** whether the file systems of cache and destination allow hard links and reflinks *)
  Variables linkable reflinkable : bool.
  (** the mode cacache gives its content files *)
  Variable blob_mode : nat.
  (** gunzip and tar: the entries in order, and whether the archive ends properly *)
  Variable untar : string -> list entry * bool.
  (** BuildManifest::from_path on these bytes: has install scripts, and the bin paths (see BinModel) *)
  Variable manifest : string -> option (bool * list string).

  Definition op (A : Type) := st -> res err A * st.
  Definition ret {A} (a : A) : op A := fun s => (Ok a, s).
  Definition fail {A} (e : err) : op A := fun s => (Err e, s).
  Definition bind {A B} (x : op A) (f : A -> op B) : op B :=
    fun s => match x s with (Ok a, s) => f a s | (Err e, s) => (Err e, s) | (Panic, s) => (Panic, s) end.
  Definition or_else {A} (x y : op A) : op A := fun s => match x s with (Err _, s) => y s | r => r end.

  (** cacache (external) [hard_link_hash_sync], [reflink_hash_sync], [copy_hash_sync]: each checks the content against its hash first
      and leaves the destination alone if that fails; the first two fail if the destination exists; std::fs::copy
      overwrites it, contents and mode, whatever other names it has, and empties a file copied onto itself *)
  Definition blob (h : string) (s : st) : option (nat * string * nat) :=
    match s_blob s h with
    | Some i => match nth_error (s_inodes s) i with Some (c, m) => if String.eqb (xxh c) h then Some (i, c, m) else None | None => None end
    | None => None
    end.
  Definition hard_link (h : string) (p : path) : op unit := fun s =>
    match blob h s with
    | Some (i, _, _) => if linkable && negb (exists_at s p) && parent_ok s p then (Ok tt, set_file p (Some i) s) else (Err EIo, s)
    | None => (Err EIntegrity, s)
    end.
  Definition reflink (h : string) (p : path) : op unit := fun s =>
    match blob h s with
    | Some (_, c, m) =>
        if reflinkable && negb (exists_at s p) && parent_ok s p then let '(i, s) := new_inode c m s in (Ok tt, set_file p (Some i) s) else (Err EIo, s)
    | None => (Err EIntegrity, s)
    end.
  Definition copy (h : string) (p : path) : op unit := fun s =>
    match blob h s with
    | Some (i, c, m) =>
        if s_dir s p then (Err EIo, s)
        else match s_file s p with
             | Some j => (Ok tt, set_inodes (lset (s_inodes s) j (if Nat.eqb i j then "" else c, m)) s)
             | None => if parent_ok s p then let '(j, s) := new_inode c m s in (Ok tt, set_file p (Some j) s) else (Err EIo, s)
             end
    | None => (Err EIntegrity, s)
    end.
  (** std::fs::set_permissions *)
  Definition chmod (f : nat -> nat) (p : path) : op unit := fun s =>
    match s_file s p with
    | Some i => match nth_error (s_inodes s) i with
                | Some (c, m) => (Ok tt, set_inodes (lset (s_inodes s) i (c, f m)) s)
                | None => (Err EIo, s)
                end
    | None => if s_dir s p then (Ok tt, s) else (Err EIo, s)
    end.
  (** tarball.rs:434-478 [extract_from_cache] (the retries of hard linking change nothing here) *)
  Definition extract_from_cache (h : string) (p : path) (x : xmode) (mode : nat) : op unit :=
    bind (match x with
          | Auto | Reflink => or_else (reflink h p) (copy h p)
          | AutoHardlink | Hardlink => or_else (or_else (hard_link h p) (reflink h p)) (copy h p)
          | XCopy => copy h p
          end)
         (fun _ => if Nat.eqb mode m644 then ret tt else chmod (fun _ => mode) p).
  (** cacache (external) [WriteOpts::open_hash_sync] .. [commit]: the content goes to a new file that takes the blob's place *)
  Definition write_blob (c : string) : op string := fun s =>
    let '(i, s) := new_inode c blob_mode s in (Ok (xxh c), set_blob (xxh c) (Some i) s).
  Definition remove_file (p : path) : op unit := fun s =>
    match s_file s p with Some _ => (Ok tt, set_file p None s) | None => (Err EIo, s) end.
  Definition read_file (p : path) : op string := fun s =>
    match s_file s p with Some i => match nth_error (s_inodes s) i with Some (c, _) => (Ok c, s) | None => (Err EIo, s) end | None => (Err EIo, s) end.
  Definition mkdirp_op (p : spath) (created : list spath) : op (list spath) := mkdirp p created.

  (** tarball.rs:422-425 [strip_one]: the path without its first component; separators and "." at both ends go *)
  Definition is_dot (x : string) : bool := String.eqb x "" || String.eqb x ".".
  Fixpoint trim_left (l : list string) : list string := match l with [] => [] | x :: t => if is_dot x then trim_left t else l end.
  Definition trim (l : list string) : list string := rev (trim_left (rev (trim_left l))).
  Fixpoint join_slash (l : list string) : string := match l with [] => "" | [x] => x | x :: t => (x ++ "/" ++ join_slash t)%string end.
  Definition strip_one (p : string) : string := join_slash (trim (tl (StdPath.split "/" p))).
  (** tarball.rs:242: the mode of an entry *)
  Definition entry_mode (e : entry) : nat := Nat.lor (match e_mode e with Some m => m | None => m644 end) m600.

  (** what the extraction loop carries along *)
  Record loop := mkLoop { l_created : list spath; l_mode : xmode; l_index : tindex; l_mani : option (bool * list string) }.
  (** tarball.rs:288-294: make full copies of the files extracted so far *)
  Fixpoint recopy (dir : path) (files : list (string * (string * nat))) (x : xmode) : op unit :=
    match files with
    | [] => ret tt
    | (e, (h, m)) :: t =>
        let p := resolve (at_dir dir e) in
        bind (remove_file p) (fun _ => bind (extract_from_cache h p x m) (fun _ => recopy dir t x))
    end.
  (** tarball.rs:234-345: one entry, with a cache or without. Without one, files are created new with the mode of the entry (the
      process umask is not modelled), and package.json is not looked at. *)
  Definition extract_entry (dir : path) (cached : bool) (e : entry) (l : loop) : op loop :=
    let sub := strip_one (e_path e) in
    let sp := at_dir dir sub in
    let p := resolve sp in
    let mode := entry_mode e in
    if e_regular e then
      bind (mkdirp_op (sparent sp) (l_created l)) (fun created =>
      if cached then
        match e_data e with
        | None => fail EIo
        | Some c =>
            bind (write_blob c) (fun h =>
            bind (extract_from_cache h p (l_mode l) mode) (fun _ =>
            let add idx := mkIdx (x_copy idx) (x_bins idx) (sput sub (h, mode) (x_files idx)) in
            if String.eqb sub "package.json" then
              bind (read_file p) (fun text =>
              match manifest text with
              | None => fail EIo
              | Some (scripts, bins) =>
                  if scripts then
                    let idx := mkIdx true (x_bins (l_index l)) (x_files (l_index l)) in
                    if is_copy (l_mode l) then ret (mkLoop created (l_mode l) (add idx) (Some (scripts, bins)))
                    else bind (recopy dir (x_files idx) Auto) (fun _ => ret (mkLoop created Auto (add idx) (Some (scripts, bins))))
                  else ret (mkLoop created (l_mode l) (add (l_index l)) (Some (scripts, bins)))
              end)
            else ret (mkLoop created (l_mode l) (add (l_index l)) (l_mani l))))
        end
      else fun s =>
        if negb (exists_at s p) && parent_ok s p then
          let '(i, s) := new_inode (match e_data e with Some c => c | None => "" end) mode s in
          (match e_data e with Some _ => Ok (mkLoop created (l_mode l) (l_index l) (l_mani l)) | None => Err EIo end, set_file p (Some i) s)
        else (Err EIo, s))
    else match e_data e with Some _ => ret l | None => fail EIo end.
  Fixpoint extract_entries (dir : path) (cached : bool) (es : list entry) (l : loop) : op loop :=
    match es with [] => ret l | e :: t => bind (extract_entry dir cached e l) (extract_entries dir cached t) end.
  (** tarball.rs:347-355, 482-501 [set_bin_mode] *)
  Fixpoint mark_bins (dir : path) (bins : list string) : op unit :=
    match bins with [] => ret tt | b :: t => bind (chmod (fun m => Nat.lor m m111) (resolve (at_dir dir b))) (fun _ => mark_bins dir t) end.
  (** tarball.rs:427-429 [tarball_key] *)
  Definition tarball_key (sri : string) : string := ("nassun::package::" ++ sri)%string.
  (** tarball.rs:203-388 [extract_to_dir]: the integrity it returns *)
  Definition extract_tarball (dir : path) (sri : option string) (cached : bool) (x : xmode) (bytes : string) : op string :=
    let '(es, clean) := untar bytes in
    bind (mkdirp_op (map CNormal dir) []) (fun created =>
    bind (extract_entries dir cached es (mkLoop created x (mkIdx false [] []) None)) (fun l =>
    if negb clean then fail EIo else
    let bins := match l_mani l with Some (_, b) => b | None => [] end in
    bind (mark_bins dir bins) (fun _ =>
    let sri := match sri with Some i => i | None => xxh bytes end in
    if cached then fun s => (Ok sri, set_index (tarball_key sri) (Some (Some (mkIdx (x_copy (l_index l)) (x_bins (l_index l) ++ bins) (x_files (l_index l))))) s)
    else ret sri))).
  (** tarball.rs:70-84 [extract_from_tarball_data] on a stream *)
  Definition extract_stream (dir : path) (sri : option string) (cached : bool) (x : xmode) (ev : list event) : op string :=
    match into_temp check limit (match sri with Some i => Some (i, "") | None => None end) ev with
    | Ok t => extract_tarball dir sri cached x (temp_bytes t)
    | Err e => fail e
    | Panic => fun s => (Panic, s)
    end.
  (** package.rs:243-292 [extract_from_cache]; [files]: the files of the index in the order the archived map iterates *)
  Definition warm_mode (idx : tindex) (x : xmode) : xmode := if x_copy idx && negb (is_copy x) then XCopy else x.
  Fixpoint warm_files (dir : path) (bins : list string) (files : list (string * (string * nat))) (x : xmode) (created : list spath) : op unit :=
    match files with
    | [] => ret tt
    | (e, (h, m)) :: t =>
        let sp := at_dir dir e in
        bind (mkdirp_op (sparent sp) created) (fun created =>
        bind (extract_from_cache h (resolve sp) x (if existsb (String.eqb e) bins then Nat.lor m m111 else m)) (fun _ =>
        warm_files dir bins t x created))
    end.
  Definition warm (dir : path) (idx : tindex) (files : list (string * (string * nat))) (x : xmode) : op unit :=
    warm_files dir (x_bins idx) files (warm_mode idx x) [].
  (** package.rs:305-331 [clean_from_cache] *)
  Fixpoint clean_blobs (files : list (string * (string * nat))) : op unit :=
    match files with [] => ret tt | (_, (h, _)) :: t => fun s => clean_blobs t (set_blob h None s) end.
  Definition clean_from_cache (sri : string) (idx : option tindex) : op unit :=
    match idx with
    | None => fail EParse
    | Some idx => bind (clean_blobs (x_files idx)) (fun _ s => (Ok tt, set_index (tarball_key sri) None s))
    end.
  (** package.rs:191-241 [extract_to_dir_inner]; [fetch]: the stream of the tarball, or an error; [order]: how the archived map
      iterates *)
  Definition fetch_extract (fetch : option (list event)) (dir : path) (sri : option string) (cached : bool) (x : xmode) : op string :=
    match fetch with Some ev => extract_stream dir sri cached x ev | None => fail EFetch end.
  Definition extract_to_dir (fetch : option (list event)) (order : tindex -> list (string * (string * nat)))
      (dir : path) (sri : option string) (cached : bool) (x : xmode) : op string :=
    match sri with
    | Some i =>
        if cached then fun s =>
          match s_index s (tarball_key i) with
          | Some (Some idx) =>
              match warm dir idx (order idx) x s with
              | (Ok _, s) => (Ok i, s)
              | (Err _, s) => bind (clean_from_cache i (Some idx)) (fun _ => fetch_extract fetch dir sri cached x) s
              | (Panic, s) => (Panic, s)
              end
          | Some None => bind (clean_from_cache i None) (fun _ => fetch_extract fetch dir sri cached x) s
          | None => fetch_extract fetch dir sri cached x s
          end
        else fetch_extract fetch dir sri cached x
    | None => fetch_extract fetch dir None cached x
    end.
End Extract.
