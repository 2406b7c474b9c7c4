(** * Dependency resolver: the graph, tree placement and the concurrent resolution loop.
    Models crates/node-maintainer/src/graph.rs and crates/node-maintainer/src/resolver.rs. *)
From Verif Require Import Base Types.

(** UniCase<String> keys. crates/node-maintainer/src/graph.rs uses [UniCase<String>] for every package
    name; two such keys are equal when they agree up to letter case.  We represent a key by its
    case-folded string.  Simplification: ASCII folding only, and the letter case of the key as
    printed is not kept. *)
Definition fold_ascii (c : ascii) : ascii :=
  let n := nat_of_ascii c in
  if (65 <=? n) && (n <=? 90) then ascii_of_nat (n + 32) else c.
Fixpoint ufold (s : string) : string :=
  match s with EmptyString => EmptyString | String c t => String (fold_ascii c) (ufold t) end.

(** crates/node-maintainer/src/graph.rs:109-115 [enum DepType] *)
Inductive deptype := Prod | Dev | Peer | Opt.
Definition deptype_eqb (a b : deptype) : bool :=
  match a, b with Prod, Prod | Dev, Dev | Peer, Peer | Opt, Opt => true | _, _ => false end.

(** crates/oro-common/src/manifest.rs [CorgiManifest]: the dependency sections the resolver reads.
    Peer and bundled dependencies are never read by it (graph.rs:75-82, commented out). *)
Record manifest := mkMan {
  m_deps : list (string * string);
  m_opt  : list (string * string);
  m_dev  : list (string * string) }.

(** crates/node-maintainer/src/graph.rs:35-54 [struct Node]. [idx] is the position in the node list and
    [root] is always node 0, so neither is stored. *)
Record node := mkNode {
  n_name : string;
  n_pkg : package;
  n_parent : option nat;
  n_children : list (string * nat);
  n_deps : list (string * nat);                    (* name -> edge index *)
  n_reqs : list (string * (pspec * deptype)) }.

(** crates/node-maintainer/src/graph.rs:117-131 [struct Edge], with its end points (petgraph). *)
Record edge := mkEdge { e_from : nat; e_to : nat; e_spec : pspec; e_type : deptype }.

(** crates/node-maintainer/src/graph.rs:133-137 [struct Graph]: petgraph StableGraph; nodes are never
    removed by the resolver, so indices are list positions; the root is index 0
    (maintainer.rs builds the graph by adding the root first). *)
Record graph := mkGraph { g_nodes : list node; g_edges : list edge }.

Definition getn (g : graph) (i : nat) : option node := nth_error (g_nodes g) i.
Definition setn (g : graph) (i : nat) (n : node) : graph := mkGraph (lset (g_nodes g) i n) (g_edges g).
Definition set_parent (n : node) p := mkNode (n_name n) (n_pkg n) p (n_children n) (n_deps n) (n_reqs n).
Definition set_children (n : node) c := mkNode (n_name n) (n_pkg n) (n_parent n) c (n_deps n) (n_reqs n).
Definition set_deps (n : node) d := mkNode (n_name n) (n_pkg n) (n_parent n) (n_children n) d (n_reqs n).

Section Resolver.
  (** external oracles: semver ranges, canonicalize, parsing of "name@spec", and turning a lockfile
      node into a package (lockfile.rs:160-220, may contact the registry) *)
  Variable rsat : range -> version -> bool.
  Variable canon : string -> option string.
  Variable parse_dep : string -> string -> res err pspec.
  Variable lnode : Type.
  Variable lnode_path : lnode -> list string.
  Variable lnode_manifest : lnode -> manifest.
  Variable to_package : lnode -> res err (option package).

  Notation sat := (satisfies rsat canon).

  (** crates/node-maintainer/src/graph.rs:84-97: one insertion loop over [deps] *)
  Fixpoint add_reqs (l : list (string * string)) (t : deptype) (acc : list (string * (pspec * deptype)))
    : res err (list (string * (pspec * deptype))) :=
    match l with
    | [] => Ok acc
    | (name, spec) :: tl =>
        let! s := parse_dep name spec in
        add_reqs tl t (sput (ufold name) (s, t) acc)
    end.
  (** crates/node-maintainer/src/graph.rs:57-108 [Node::new]: prod, then optional, then (root only) dev
      dependencies; a later section overrides the value of an earlier one under the same key. *)
  Definition new_node (name : string) (pkg : package) (m : manifest) (is_root : bool) : res err node :=
    let! r1 := add_reqs (m_deps m) Prod [] in
    let! r2 := add_reqs (m_opt m) Opt r1 in
    let! r3 := (if is_root then add_reqs (m_dev m) Dev r2 else Ok r2) in
    Ok (mkNode name pkg None [] [] r3).

  (** crates/node-maintainer/src/graph.rs:420-440 [NodeParentIterator]: the node itself, its parent, ...
      The Rust iterator has no bound; here fuel [S i] is enough because a parent is always older than
      its child (proved: [parents_complete] in ResolverProofs). *)
  Fixpoint chain (fuel : nat) (g : graph) (i : nat) : list nat :=
    match fuel with
    | 0 => []
    | S f => match getn g i with
             | None => []
             | Some n => i :: match n_parent n with None => [] | Some p => chain f g p end
             end
    end.
  Definition parents (g : graph) (i : nat) : list nat := chain (S i) g i.

  Definition child_of (g : graph) (i : nat) (name : string) : option nat :=
    match getn g i with Some n => sget name (n_children n) | None => None end.

  (** crates/node-maintainer/src/graph.rs:179-186 [resolve_dep] and 280-292 [find_by_name] (same walk) *)
  Fixpoint first_child (g : graph) (l : list nat) (name : string) : option nat :=
    match l with
    | [] => None
    | i :: t => match child_of g i name with Some c => Some c | None => first_child g t name end
    end.
  Definition resolve_dep (g : graph) (i : nat) (name : string) : option nat := first_child g (parents g i) name.

  (** crates/node-maintainer/src/graph.rs:188-191 [is_ancestor] *)
  Definition is_ancestor (g : graph) (anc desc : nat) : bool := existsb (Nat.eqb anc) (parents g desc).

  Definition name_of (g : graph) (i : nat) : string :=
    match getn g i with Some n => n_name n | None => EmptyString end.
  (** crates/node-maintainer/src/graph.rs:294-309 [node_path] *)
  Definition node_path (g : graph) (i : nat) : list string :=
    rev (map (name_of g) (filter (fun j => negb (j =? 0)) (parents g i))).
  (** crates/node-maintainer/src/graph.rs:104-106 [Node::depth] *)
  Definition depth (g : graph) (i : nat) : nat := length (parents g i) - 1.

  (** crates/node-maintainer/src/resolver.rs:30-37 [struct NodeDependency] (without the timer) *)
  Record dep := mkDep { d_name : string; d_spec : pspec; d_type : deptype; d_node : nat }.

  Definition add_edge (g : graph) (e : edge) : graph * nat :=
    (mkGraph (g_nodes g) (g_edges g ++ [e]), length (g_edges g)).
  Definition link_dep (g : graph) (i : nat) (name : string) (e : nat) : graph :=
    match getn g i with Some n => setn g i (set_deps n (sput name e (n_deps n))) | None => g end.

  (** crates/node-maintainer/src/resolver.rs:278-301 [satisfy_dependency] *)
  Definition satisfy_dependency (g : graph) (d : dep) : res err (option (graph * nat)) :=
    match resolve_dep g (d_node d) (d_name d) with
    | Some x =>
        match getn g x with
        | None => Panic
        | Some nx =>
            let! ok := sat (pk_resolved (n_pkg nx)) (d_spec d) in
            if ok then
              let (g1, e) := add_edge g (mkEdge (d_node d) x (d_spec d) (d_type d)) in
              Ok (Some (link_dep g1 (d_node d) (d_name d) e, x))
            else Ok None
        end
    | None => Ok None
    end.

  Definition lpath_eqb (a b : list string) : bool := list_eqb String.eqb a b.

  (** crates/node-maintainer/src/resolver.rs:372-386, first check of the placement loop at [cur].
      The Rust loop visits the incoming edges and evaluates [satisfies(requested)?] (same arguments
      each time) only for edges from below [cur]; so it breaks iff such an edge exists and the package
      found does not satisfy, and errs iff such an edge exists and [satisfies] errs. *)
  Definition conflict_existing (g : graph) (cur : nat) (name : string) (requested : pspec) : res err bool :=
    match resolve_dep g cur name with
    | None => Ok false
    | Some r =>
        if existsb (fun e => (e_to e =? r) && is_ancestor g cur (e_from e)) (g_edges g) then
          match getn g r with
          | None => Panic
          | Some nr => let! s := sat (pk_resolved (n_pkg nr)) requested in Ok (negb s)
          end
        else Ok false
    end.
  (** crates/node-maintainer/src/resolver.rs:388-392, second check *)
  Definition conflict_req (g : graph) (cur : nat) (name : string) (pkg : package) : res err bool :=
    match getn g cur with
    | None => Panic
    | Some n => match sget name (n_reqs n) with
                | None => Ok false
                | Some (req, _) => let! s := sat (pk_resolved pkg) req in Ok (negb s)
                end
    end.
  (** crates/node-maintainer/src/resolver.rs:369-406, the ['outer] loop; [l] is the list of nodes still to
      visit (the dependent and its ancestors), [target] the best location so far. *)
  Fixpoint climb (g : graph) (name : string) (requested : pspec) (pkg : package)
           (locked : option (list string)) (tgt : nat) (l : list nat) : res err nat :=
    match l with
    | [] => Ok tgt
    | cur :: rest =>
        let! c1 := conflict_existing g cur name requested in
        if c1 then Ok tgt else
        let! c2 := conflict_req g cur name pkg in
        if c2 then Ok tgt else
        match locked with
        | Some lp => if lpath_eqb lp (node_path g cur) then Ok cur
                     else climb g name requested pkg locked cur rest
        | None => climb g name requested pkg locked cur rest
        end
    end.

  (** crates/node-maintainer/src/resolver.rs:364-367: the lockfile's target path without its last element;
      [len - 1] panics on an empty path. *)
  Definition target_parent (t : option (list string)) : res err (option (list string)) :=
    match t with
    | None => Ok None
    | Some [] => Panic
    | Some l => Ok (Some (removelast l))
    end.

  Definition set_parent_at (g : graph) (i : nat) (p : option nat) : graph :=
    match getn g i with Some n => setn g i (set_parent n p) | None => g end.
  Definition add_child (g : graph) (i : nat) (name : string) (c : nat) : graph :=
    match getn g i with Some n => setn g i (set_children n (sput name c (n_children n))) | None => g end.

  (** crates/node-maintainer/src/resolver.rs:346-440 [place_child]. Returns the new graph and the new
      node. The "clobbered" branch (432-438) only logs: the old child's entry is overwritten by [sput]. *)
  Definition place_child (g : graph) (d : dep) (pkg : package) (m : manifest)
             (tpath : option (list string)) : res err (graph * nat) :=
    let! cn := new_node (d_name d) pkg m false in
    let ci := length (g_nodes g) in
    let g1 := mkGraph (g_nodes g ++ [cn]) (g_edges g ++ [mkEdge (d_node d) ci (d_spec d) (d_type d)]) in
    let ei := length (g_edges g) in
    let! lp := target_parent tpath in
    let! tgt := climb g1 (d_name d) (d_spec d) pkg lp (d_node d) (parents g1 (d_node d)) in
    let g2 := link_dep g1 (d_node d) (d_name d) ei in
    let g3 := set_parent_at g2 ci (Some tgt) in
    let g4 := add_child g3 tgt (d_name d) ci in
    Ok (g4, ci).

  (** The lockfile as the resolver sees it: crates/node-maintainer/src/lockfile.rs:15-20, the packages
      keyed by their path. Simplification: the key is the list of path elements instead of the string
      obtained by joining them with "/node_modules/" (LockfileModel keeps the strings). *)
  Definition lockpkgs := list (list string * lnode).

  (** crates/node-maintainer/src/resolver.rs:303-344 [satisfy_from_lockfile]; [rp] is the dependent's path
      reversed. *)
  Fixpoint lock_walk (lf : lockpkgs) (rp : list string) (name : string) (requested : pspec)
    : res err (option (package * lnode)) :=
    let here (k : unit -> res err (option (package * lnode))) :=
      match aget lpath_eqb (rev rp ++ [name]) lf with
      | Some ln =>
          let! mp := to_package ln in
          match mp with
          | Some p => let! s := sat (pk_resolved p) requested in
                      if s then Ok (Some (p, ln)) else Ok None
          | None => k tt
          end
      | None => k tt
      end in
    match rp with
    | [] => here (fun _ => Ok None)
    | _ :: rp' => here (fun _ => lock_walk lf rp' name requested)
    end.
  Definition satisfy_from_lockfile (g : graph) (i : nat) (lf : lockpkgs) (name : string) (requested : pspec) :=
    lock_walk lf (rev (node_path g i)) name requested.

  (** State of [run_resolver] (resolver.rs:52-276): the graph, the work queue [q], the counter
      [in_flight], the channel [package_sink]/[package_stream] (dependencies sent but not yet pulled
      by the stream), and the [fetches] map of specs being fetched with everybody waiting for them. *)
  Record st := mkSt {
    s_g : graph;
    s_q : list nat;
    s_inflight : nat;
    s_sink : list dep;
    s_fetches : list (pspec * list dep) }.

  (** resolver.rs:110-178, body of the dependency loop for one dependency. *)
  Definition process_dep (lock : option lockpkgs) (s : st) (d : dep) : res err st :=
    let! r := satisfy_dependency (s_g s) d in
    match r with
    | Some (g', _) => Ok (mkSt g' (s_q s) (s_inflight s) (s_sink s) (s_fetches s))
    | None =>
        let! lr := match lock with
                   | Some lf => satisfy_from_lockfile (s_g s) (d_node d) lf (d_name d) (d_spec d)
                   | None => Ok None
                   end in
        match lr with
        | Some (p, ln) =>
            let! (g', ci) := place_child (s_g s) d p (lnode_manifest ln) (Some (lnode_path ln)) in
            Ok (mkSt g' (s_q s ++ [ci]) (s_inflight s) (s_sink s) (s_fetches s))
        | None => Ok (mkSt (s_g s) (s_q s) (S (s_inflight s)) (s_sink s ++ [d]) (s_fetches s))
        end
    end.
  Fixpoint process_deps (lock : option lockpkgs) (s : st) (l : list dep) : res err st :=
    match l with [] => Ok s | d :: t => let! s' := process_dep lock s d in process_deps lock s' t end.
  (** resolver.rs:101-180: pop one node and look up all its dependencies. The [names] set (102,106-110)
      never filters anything: the keys of [dependency_reqs] are already distinct. *)
  Definition deps_of (i : nat) (n : node) : list dep :=
    map (fun e => mkDep (fst e) (fst (snd e)) (snd (snd e)) i) (n_reqs n).
  Definition pop_step (lock : option lockpkgs) (s : st) : option (res err st) :=
    match s_q s with
    | [] => None
    | i :: q' =>
        Some (match getn (s_g s) i with
              | None => Panic
              | Some n => process_deps lock (mkSt (s_g s) q' (s_inflight s) (s_sink s) (s_fetches s)) (deps_of i n)
              end)
    end.

  (** resolver.rs:74-92: the stream takes one dependency from the channel; either it joins a fetch already
      in flight or it starts one. ([try_lock] cannot fail: the only other holder, line 193, releases
      the lock before the stream is polled again.) *)
  Definition pull1 (fetches : list (pspec * list dep)) (d : dep) : list (pspec * list dep) :=
    match aget pspec_eqb (d_spec d) fetches with
    | Some l => aput pspec_eqb (d_spec d) (l ++ [d]) fetches
    | None => aput pspec_eqb (d_spec d) [d] fetches
    end.
  Definition pull (k : nat) (s : st) : st :=
    mkSt (s_g s) (s_q s) (s_inflight s) (skipn k (s_sink s)) (fold_left pull1 (firstn k (s_sink s)) (s_fetches s)).

  (** what a fetch of a spec delivers: resolver.rs:187-196 ([resolve_spec], then [corgi_metadata]) *)
  Definition outcome := res err (package * manifest).

  (** resolver.rs:217-243: one waiting dependency once its package has arrived *)
  Definition place_fetched (s : st) (p : package) (m : manifest) (d : dep) : res err st :=
    let! r := satisfy_dependency (s_g s) d in
    match r with
    | Some (g', _) => Ok (mkSt g' (s_q s) (s_inflight s) (s_sink s) (s_fetches s))
    | None =>
        let! (g', ci) := place_child (s_g s) d p m None in
        Ok (mkSt g' (s_q s ++ [ci]) (s_inflight s) (s_sink s) (s_fetches s))
    end.
  Fixpoint place_all (s : st) (p : package) (m : manifest) (l : list dep) : res err st :=
    match l with [] => Ok s | d :: t => let! s' := place_fetched s p m d in place_all s' p m t end.

  (** resolver.rs:186-245: one result of the chunk. The deprecation warning (202-215) is not modelled. *)
  Definition result_step (s : st) (spec : pspec) (o : outcome) : res err st :=
    let! (p, m) := o in
    match aget pspec_eqb spec (s_fetches s) with
    | None => Ok s
    | Some deps =>
        place_all (mkSt (s_g s) (s_q s) (s_inflight s - length deps) (s_sink s) (adel pspec_eqb spec (s_fetches s)))
                  p m deps
    end.
  Fixpoint results_step (s : st) (l : list (pspec * outcome)) : res err st :=
    match l with [] => Ok s | (spec, o) :: t => let! s' := result_step s spec o in results_step s' t end.

  (** resolver.rs:247-257: stable sort of the queue by depth, then by package name *)
  Definition before (g : graph) (a b : nat) : bool :=      (* a may stay before b *)
    match Nat.compare (depth g a) (depth g b) with
    | Lt => true
    | Gt => false
    | Eq => match getn g a, getn g b with
            | Some x, Some y => String.leb (pk_name (n_pkg x)) (pk_name (n_pkg y))
            | _, _ => true
            end
    end.
  Fixpoint insert (g : graph) (a : nat) (l : list nat) : list nat :=
    match l with [] => [a] | b :: t => if before g a b then a :: l else b :: insert g a t end.
  Definition sort (g : graph) (l : list nat) : list nat := fold_right (insert g) [] l.

  (** resolver.rs:97-259, one iteration of the outer loop split into its two kinds of work. The schedule
      chooses how many queued dependencies the stream has pulled ([pulls]) and which fetches complete
      together ([results]); the concurrency limit only restricts these choices. *)
  Inductive action :=
  | APop
  | AChunk (pulls : nat) (results : list (pspec * outcome)).

  Definition exec (lock : option lockpkgs) (s : st) (a : action) : option (res err st) :=
    match a with
    | APop => pop_step lock s
    | AChunk k results =>
        match s_q s with
        | _ :: _ => None                                   (* the queue is drained first (101) *)
        | [] =>
            if s_inflight s =? 0 then None                 (* nothing to wait for (183-185) *)
            else if existsb (fun r => negb (is_some (aget pspec_eqb (fst r) (s_fetches (pull k s))))) results
            then None                                      (* only specs being fetched can complete *)
            else match results with
                 | [] => None                              (* ready_chunks never yields an empty chunk *)
                 | _ => Some (let! s' := results_step (pull k s) results in
                              Ok (mkSt (s_g s') (sort (s_g s') (s_q s')) (s_inflight s') (s_sink s') (s_fetches s')))
                 end
        end
    end.

  (** initial state: maintainer.rs creates the graph with the root node; resolver.rs:62-66 queues it *)
  Definition init_graph (root : node) : graph := mkGraph [root] [].
  Definition init (root : node) : st := mkSt (init_graph root) [0] 0 [] [].

  (** resolver.rs:97: the loop ends when the queue is empty and nothing is in flight *)
  Definition finished (s : st) : bool := match s_q s with [] => s_inflight s =? 0 | _ => false end.

  (** run a whole schedule *)
  Fixpoint run (lock : option lockpkgs) (s : st) (sched : list action) : option (res err st) :=
    match sched with
    | [] => Some (Ok s)
    | a :: t => match exec lock s a with
                | Some (Ok s') => run lock s' t
                | r => r
                end
    end.
End Resolver.

