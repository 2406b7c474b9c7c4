(** * Lockfiles: crates/node-maintainer/src/lockfile.rs and graph.rs [to_lockfile]. *)
From Verif Require Import Base Types Kdl ResolverModel.
Open Scope string_scope.
Open Scope list_scope.

(** lockfile.rs:131-143 [struct LockfileNode]. UniCase strings are kept as written here; see [ueqb].
    An [Integrity] is its printed form. *)
Record lnode := mkLn {
  l_name : string; l_is_root : bool; l_path : list string; l_resolved : option string; l_version : option version;
  l_integrity : option string;
  l_deps : list (string * string); l_dev : list (string * string); l_peer : list (string * string); l_opt : list (string * string) }.
(** lockfile.rs:14-19 [struct Lockfile] *)
Record lockfile := mkLf { lf_version : N; lf_root : lnode; lf_packages : list (string * lnode) }.

(** unicase: [UniCase<String>] equality (ASCII folding only) *)
Definition ueqb (a b : string) : bool := String.eqb (ufold a) (ufold b).

(** Rust [Vec::join] *)
Fixpoint join (sep : string) (l : list string) : string :=
  match l with [] => "" | [x] => x | x :: t => x ++ sep ++ join sep t end.
Definition nm_sep : string := "/node_modules/".
Definition path_key (p : list string) : string := join nm_sep p.

(** insertion sort by a total preorder: Rust's stable [sort_by]/[sort_by_key] *)
Fixpoint sinsert {A} (le : A -> A -> bool) (a : A) (l : list A) : list A :=
  match l with [] => [a] | b :: t => if le a b then a :: l else b :: sinsert le a t end.
Definition ssort {A} (le : A -> A -> bool) (l : list A) : list A := fold_right (sinsert le) [] l.

Section Codec.
  (** node_semver::Version Display and FromStr, ssri::Integrity FromStr followed by Display *)
  Variable vshow : version -> string.
  Variable vparse : string -> option version.
  Variable iparse : string -> option string.

  (** lockfile.rs:356-376 [to_kdl_deps] *)
  Definition dep_section (t : deptype) : string :=
    match t with Prod => "dependencies" | Dev => "dev-dependencies" | Peer => "peer-dependencies" | Opt => "optional-dependencies" end.
  Definition deps_to_kdl (t : deptype) (deps : list (string * string)) : knode :=
    KNode (dep_section t) []
      (Some (ssort (fun a b => String.leb (k_name a) (k_name b)) (map (fun e => knode1 (fst e) (snd e)) deps))).
  Definition opt_node (name : string) (o : option string) : kdoc := match o with Some s => [knode1 name s] | None => [] end.
  Definition deps_nodes (t : deptype) (deps : list (string * string)) : kdoc :=
    match deps with [] => [] | _ => [deps_to_kdl t deps] end.
  (** lockfile.rs:302-354 [LockfileNode::to_kdl]; [ensure_children] creates the block on first use *)
  Definition lnode_children (n : lnode) : kdoc :=
    opt_node "version" (option_map vshow (l_version n))
    ++ (if l_is_root n then [] else
        match l_resolved n with
        | Some r => knode1 "resolved" r :: opt_node "integrity" (l_integrity n)
        | None => []
        end)
    ++ deps_nodes Prod (l_deps n) ++ deps_nodes Dev (l_dev n) ++ deps_nodes Peer (l_peer n) ++ deps_nodes Opt (l_opt n).
  Definition lnode_to_kdl (n : lnode) : knode :=
    KNode (if l_is_root n then "root" else "pkg") (map (fun x => (None, KStr x)) (l_path n))
      (match lnode_children n with [] => None | c => Some c end).
  (** [u64 as i64] (lockfile.rs:40) and [i64::try_into::<u64>] (lockfile.rs:74-80) *)
  Definition as_i64 (n : N) : Z := let z := Z.of_N (n mod 2 ^ 64) in if (z <? 2 ^ 63)%Z then z else (z - 2 ^ 64)%Z.
  (** lockfile.rs:34-50 [Lockfile::to_kdl]; packages sorted by UniCase order *)
  Definition to_kdl (lf : lockfile) : kdoc :=
    KNode "lockfile-version" [(None, KInt (as_i64 (lf_version lf)))] None
    :: lnode_to_kdl (lf_root lf)
    :: map (fun e => lnode_to_kdl (snd e))
           (ssort (fun a b => String.leb (ufold (fst a)) (ufold (fst b))) (lf_packages lf)).

  (** lockfile.rs:278-300 [from_kdl_deps] *)
  Definition deps_from_kdl (children : kdoc) (t : deptype) : list (string * string) :=
    match kget (dep_section t) children with
    | Some n => match k_children n with
                | Some cs => fold_left (fun acc d => sput (k_name d) (match obind (k_arg0 d) as_string with Some s => s | None => "*" end) acc) cs []
                | None => []
                end
    | None => []
    end.
  Definition string_args (n : knode) : list string :=
    flat_map (fun a => match a with KStr s => [s] | _ => [] end) (k_args n).
  Definition parse_opt {A} (parse : string -> option A) (e : err) (o : option string) : res err (option A) :=
    match o with None => Ok None | Some s => match parse s with Some x => Ok (Some x) | None => Err e end end.
  (** lockfile.rs:222-276 [LockfileNode::from_kdl] *)
  Definition lnode_from_kdl (n : knode) (is_root : bool) : res err lnode :=
    let children := match k_children n with Some c => c | None => [] end in
    let path := string_args n in
    let! name := (if is_root then Ok "" else match rev path with x :: _ => Ok x | [] => Err EMissingName end) in
    let! integrity := parse_opt iparse EIntegrity (obind (kget_arg "integrity" children) as_string) in
    let! ver := parse_opt vparse EParse (obind (kget_arg "version" children) as_string) in
    let resolved := obind (kget_arg "resolved" children) as_string in
    Ok (mkLn name is_root path resolved ver integrity
             (deps_from_kdl children Prod) (deps_from_kdl children Dev)
             (deps_from_kdl children Peer) (deps_from_kdl children Opt)).
  (** collecting a sequence of [Result]s *)
  Fixpoint rmap {A B} (f : A -> res err B) (l : list A) : res err (list B) :=
    match l with [] => Ok [] | a :: t => let! b := f a in let! bs := rmap f t in Ok (b :: bs) end.
  (** collecting into an IndexMap keyed by the joined path (lockfile.rs:61-72, 99-110; graph.rs:196-212) *)
  Definition keyed (l : list lnode) : list (string * lnode) :=
    fold_left (fun acc n => aput ueqb (path_key (l_path n)) n acc) l [].
  (** lockfile.rs:52-90 [Lockfile::from_kdl] on a parsed document *)
  Definition from_kdl (d : kdoc) : res err lockfile :=
    let! pkgs := rmap (fun n => lnode_from_kdl n false) (filter (fun n => String.eqb (k_name n) "pkg") d) in
    let! ver := match obind (kget_arg "lockfile-version" d) as_int with
                | Some z => if (z <? 0)%Z then Err EKdl else Ok (Z.to_N z)
                | None => Ok 1%N
                end in
    let! root := match kget "root" d with Some n => lnode_from_kdl n true | None => Err EMissingRoot end in
    Ok (mkLf ver root (keyed pkgs)).

  (** lockfile.rs:440-470 [NpmPackageLockEntry], after JSON parsing *)
  Record npm_entry := mkNpm {
    p_name : option string; p_version : option string; p_resolved : option string; p_integrity : option string;
    p_deps : list (string * string); p_dev : list (string * string); p_opt : list (string * string); p_peer : list (string * string) }.
  (** Rust [str::split(sep)] *)
  Fixpoint starts_with (p s : string) : bool :=
    match p, s with
    | EmptyString, _ => true
    | String a p', String b s' => Ascii.eqb a b && starts_with p' s'
    | _, _ => false
    end.
  Fixpoint sskip (n : nat) (s : string) : string :=
    match n, s with S n', String _ s' => sskip n' s' | _, _ => s end.
  Fixpoint split_at (fuel : nat) (sep cur s : string) : list string :=
    match fuel with
    | 0 => [cur]
    | S f => if starts_with sep s then cur :: split_at f sep "" (sskip (String.length sep) s)
             else match s with
                  | EmptyString => [cur]
                  | String c s' => split_at f sep (cur ++ String c "") s'
                  end
    end.
  Definition split (sep s : string) : list string := split_at (S (String.length s)) sep "" s.
  (** lockfile.rs:378-420 [LockfileNode::from_npm] *)
  Definition lnode_from_npm (path_str : string) (e : npm_entry) : res err lnode :=
    let path := tl (split nm_sep ("/" ++ path_str)) in
    let! name := (if String.eqb path_str "" then Ok "" else
                  match p_name e with
                  | Some x => Ok x
                  | None => match rev path with x :: _ => Ok x | [] => Err EMissingName end
                  end) in
    let! integrity := parse_opt iparse EIntegrity (p_integrity e) in
    let! ver := parse_opt vparse EParse (p_version e) in
    Ok (mkLn name (match path with [] => true | _ => false end) path (p_resolved e) ver integrity
             (p_deps e) (p_dev e) (p_peer e) (p_opt e)).
  (** lockfile.rs:92-128 [Lockfile::from_npm] on the parsed JSON *)
  Definition from_npm (version : option N) (packages : list (string * npm_entry)) : res err lockfile :=
    let! pkgs := rmap (fun e => lnode_from_npm (fst e) (snd e)) packages in
    let! root := match sget "" packages with Some e => lnode_from_npm "" e | None => Err EMissingRoot end in
    Ok (mkLf (match version with Some v => v | None => 3%N end) root (keyed pkgs)).

  (** ** Equality of lockfiles: [#[derive(PartialEq)]] on IndexMaps (order irrelevant) and UniCase keys *)
  Definition map_eqb (a b : list (string * string)) : bool :=
    Nat.eqb (List.length a) (List.length b) && forallb (fun e => ostr_eqb (sget (fst e) b) (Some (snd e))) a.
  Definition lnode_eqb (a b : lnode) : bool :=
    ueqb (l_name a) (l_name b) && Bool.eqb (l_is_root a) (l_is_root b) && list_eqb ueqb (l_path a) (l_path b)
    && ostr_eqb (l_resolved a) (l_resolved b) && opt_eqb version_eqb (l_version a) (l_version b)
    && ostr_eqb (l_integrity a) (l_integrity b)
    && map_eqb (l_deps a) (l_deps b) && map_eqb (l_dev a) (l_dev b) && map_eqb (l_peer a) (l_peer b) && map_eqb (l_opt a) (l_opt b).
  Definition lockfile_eqb (a b : lockfile) : bool :=
    N.eqb (lf_version a) (lf_version b) && lnode_eqb (lf_root a) (lf_root b)
    && Nat.eqb (List.length (lf_packages a)) (List.length (lf_packages b))
    && forallb (fun e => match aget ueqb (fst e) (lf_packages b) with Some n => lnode_eqb (snd e) n | None => false end) (lf_packages a).

  (** ** Producing a lockfile from a resolved graph *)
  Variable requested : pspec -> string.           (* PackageSpec::requested, lib.rs:71-100 *)
  Variable gitshow : gitinfo -> string.           (* GitInfo Display *)

  Definition linked_deps (g : graph) (t : deptype) (n : node) : list (string * string) :=
    fold_left (fun acc e => match nth_error (g_edges g) (snd e) with
                            | Some ed => if deptype_eqb (e_type ed) t then sput (fst e) (requested (e_spec ed)) acc else acc
                            | None => acc
                            end) (n_deps n) [].
  (** graph.rs:365-423 [node_lockfile_node] *)
  Definition node_lnode (g : graph) (i : nat) (is_root : bool) : res err lnode :=
    match getn g i with
    | None => Panic
    | Some n =>
        let r := pk_resolved (n_pkg n) in
        Ok (mkLn (pk_name (n_pkg n)) is_root (node_path g i)
              (Some (match r with RNpm _ _ t _ => t | RDir _ p => p | RGit _ info => gitshow info end))
              (match r with RNpm _ v _ _ => Some v | _ => None end)
              (match r with RNpm _ _ _ i => i | _ => None end)
              (linked_deps g Prod n) (linked_deps g Dev n) (linked_deps g Peer n) (linked_deps g Opt n))
    end.
  (** graph.rs:193-219 [to_lockfile] *)
  Definition to_lockfile (g : graph) : res err lockfile :=
    let! root := node_lnode g 0 true in
    let! pkgs := rmap (fun i => node_lnode g i false) (filter (fun i => negb (Nat.eqb i 0)) (seq 0 (List.length (g_nodes g)))) in
    Ok (mkLf 1 root (keyed pkgs)).

  (** resolver.rs:261-267: the check made by --locked at the end of a resolution *)
  Definition locked_check (locked : bool) (lock : option lockfile) (g : graph) : res err unit :=
    if locked then
      match lock with
      | Some lf => let! lf' := to_lockfile g in if lockfile_eqb lf lf' then Ok tt else Err ELockfileMismatch
      | None => Ok tt
      end
    else Ok tt.

  (** lockfile.rs:160-220 [LockfileNode::to_package]: [parse_spec] is PackageSpec::from_str, [parse_url] Url::parse,
      [resolve] a registry lookup. [starts_with "http"] is the literal prefix test of line 166. *)
  Variable parse_spec : string -> res err pspec.
  Variable parse_url : string -> option string.
  Variable resolve : string -> res err package.
  Variable spec_show : pspec -> string.
  Definition to_package (n : lnode) : res err (option package) :=
    let spec_str :=
      match l_resolved n, l_version n with
      | Some r, Some v => Some (l_name n ++ "@" ++ (if starts_with "http" r then vshow v else r))
      | Some r, None => Some (l_name n ++ "@" ++ r)
      | None, Some v => Some (l_name n ++ "@" ++ vshow v)
      | None, None => None
      end%string in
    match spec_str with
    | None => Ok None
    | Some s =>
        let! spec := parse_spec s in
        match target spec with
        | SDir path => Ok (Some (mkPkg (l_name n) spec (RDir (l_name n) path)))
        | SNpm _ nm _ =>
            match l_version n with
            | None => Err EMissingVersion
            | Some v =>
                match l_resolved n with
                | Some url => match parse_url url with
                              | Some u => Ok (Some (mkPkg (l_name n) spec (RNpm nm v u (l_integrity n))))
                              | None => Err EUrl
                              end
                | None => let! p := resolve (spec_show spec) in Ok (Some p)
                end
            end
        | SGit info =>
            match info with
            | GHosted _ _ _ (Some _) _ _ | GUrl _ (Some _) _ | GSsh _ (Some _) _ =>
                Ok (Some (mkPkg (l_name n) spec (RGit (l_name n) info)))
            | _ => let! p := resolve (spec_show spec) in Ok (Some p)
            end
        | SAlias _ _ => Panic
        end
    end.
  (** lockfile.rs:145-157 [From<LockfileNode> for CorgiManifest] *)
  Definition lnode_manifest (n : lnode) : manifest := mkMan (l_deps n) (l_opt n) (l_dev n).
End Codec.
