(** * Properties C01-C05 and C10: dependency resolution.
    Vocabulary (ResolverSpec): [installed_at g i path]: package [i] is in that node_modules directory;
    [visible g i x c]: Node's walk-up lookup of "x" from package [i] finds package [c];
    [declares g i x sp t]: package [i]'s package.json asks for x with spec [sp]; [linked g i x sp t c]: the
    resolver chose package [c] for it; [acceptable g c sp]: [c] satisfies [sp] or is what the registry
    returned for [sp].  [reach root s]: some legal schedule of registry answers leads to state [s]. *)
From Verif Require Import Base Types ResolverModel ResolverProofs ResolverRun ResolverSpec ResolverThms
  ResolverSteps ResolverTerm ResolverSafe ResolverBarrier ResolverFacts ResolverExamples.

Section World.
  (** every choice of oracles: semver ranges, canonicalize, spec parser, lockfile and registry *)
  Variable rsat : range -> version -> bool.
  Variable canon : string -> option string.
  Variable parse_dep : string -> string -> res err pspec.
  Variable lnode : Type.
  Variable lnode_path : lnode -> list string.
  Variable lnode_manifest : lnode -> manifest.
  Variable to_package : lnode -> res err (option package).
  Variable deliver : pspec -> outcome -> Prop.
  Variable lock : option (lockpkgs lnode).

  Notation reach := (reach rsat canon parse_dep lnode lnode_path lnode_manifest to_package deliver lock).
  Notation reach_nolock := (ResolverRun.reach rsat canon parse_dep lnode lnode_path lnode_manifest to_package deliver None).
  Notation reach_calm := (reach_calm rsat canon parse_dep lnode lnode_path lnode_manifest to_package deliver lock).
  Notation reach_barrier := (reach_barrier rsat canon parse_dep lnode lnode_path lnode_manifest to_package deliver).
  Notation reach_offline := (reach_offline rsat canon parse_dep lnode lnode_path lnode_manifest to_package lock).
  Notation exec := (exec rsat canon parse_dep lnode lnode_path lnode_manifest to_package lock).
  Notation steps_nolock := (steps rsat canon parse_dep lnode lnode_path lnode_manifest to_package deliver None).
  Notation legal := (legal deliver).

  Variables (root : node) (pkg : package) (m : manifest) (name : string).
  Hypothesis Hroot : new_node parse_dep name pkg m true = Ok root.

  (** C01: in every reachable state each package has exactly one location, no two packages share one, every
      package but the root is in exactly one older package's node_modules, under its own name ... *)
  Theorem C01_tree_unique : forall s, reach root s ->
    (forall i, i < size (s_g s) -> exists! path, installed_at (s_g s) i path)
    /\ (forall i j path, installed_at (s_g s) i path -> installed_at (s_g s) j path -> i = j)
    /\ (forall i, 0 < i < size (s_g s) -> exists p, p < i /\ child_of (s_g s) p (name_of (s_g s) i) = Some i
          /\ forall p' x, child_of (s_g s) p' x = Some i -> p' = p /\ x = name_of (s_g s) i).
  Proof. exact (tree_unique_all rsat canon parse_dep lnode lnode_path lnode_manifest to_package deliver lock root pkg m name Hroot). Qed.
  (** ... and no later step ever removes or replaces an installed package. *)
  Theorem C01_no_clobber : forall s a s', reach root s -> legal a -> exec s a = Some (Ok s') ->
    forall path p, tree_has (s_g s) path p -> tree_has (s_g s') path p.
  Proof. exact (no_clobber rsat canon parse_dep lnode lnode_path lnode_manifest to_package deliver lock root pkg m name Hroot). Qed.

  (** C02, the part that holds for every schedule: whatever package a dependency was linked to is acceptable.
      Missing: that walk-up lookup finds that package (false in general, see C02_refuted). *)
  Theorem C02_links_partial : forall s, reach root s -> forall i x sp t c,
    linked (s_g s) i x sp t c -> declares (s_g s) i x sp t /\ acceptable rsat canon deliver (s_g s) c sp.
  Proof. exact (links_ok rsat canon parse_dep lnode lnode_path lnode_manifest to_package deliver lock root pkg m name Hroot). Qed.
  (** C02 for schedules that never process a package while a package containing it still waits for an answer. *)
  Theorem C02_calm_partial : forall s, reach_calm root s -> finished s = true -> forall i x sp t,
    declares (s_g s) i x sp t -> exists c, visible (s_g s) i x c /\ acceptable rsat canon deliver (s_g s) c sp.
  Proof. exact (calm_ok rsat canon parse_dep lnode lnode_path lnode_manifest to_package deliver lock root pkg m name Hroot). Qed.
  (** such schedules: no lockfile, and all outstanding answers arrive before the next packages are processed *)
  Theorem C02_barrier_partial : forall s, reach_barrier root s -> finished s = true -> forall i x sp t,
    declares (s_g s) i x sp t -> exists c, visible (s_g s) i x c /\ acceptable rsat canon deliver (s_g s) c sp.
  Proof. exact (barrier_ok rsat canon parse_dep lnode lnode_path lnode_manifest to_package deliver root pkg m name Hroot). Qed.
  (** ... or everything is answered by the lockfile *)
  Theorem C02_offline_partial : forall s, reach_offline root s -> finished s = true -> forall i x sp t,
    declares (s_g s) i x sp t -> exists c, visible (s_g s) i x c /\ acceptable rsat canon deliver (s_g s) c sp.
  Proof. exact (offline_ok rsat canon parse_dep lnode lnode_path lnode_manifest to_package deliver lock root pkg m name Hroot). Qed.

  (** C03: each declared dependency is in exactly one of three situations: its package is still queued, it has
      been linked, or it waits for a fetch (once) ... *)
  Theorem C03_exactly_once : forall s, reach root s ->
    NoDup (map dkey (waiting s)) /\
    forall i x sp t, declares (s_g s) i x sp t ->
      (In i (s_q s) /\ ~ (exists c, linked (s_g s) i x sp t c) /\ ~ In (i, x) (map dkey (waiting s)))
   \/ (~ In i (s_q s) /\ (exists c, linked (s_g s) i x sp t c) /\ ~ In (i, x) (map dkey (waiting s)))
   \/ (~ In i (s_q s) /\ ~ (exists c, linked (s_g s) i x sp t c) /\ In (mkDep x sp t i) (waiting s)).
  Proof. exact (exactly_once rsat canon parse_dep lnode lnode_path lnode_manifest to_package deliver lock root pkg m name Hroot). Qed.
  (** ... requests for one spec share one fetch, and the fetch serves exactly those who asked for that spec ... *)
  Theorem C03_shared_fetches : forall s, reach root s ->
    NoDup (map fst (s_fetches s)) /\ (forall sp l, In (sp, l) (s_fetches s) -> l <> [] /\ forall d, In d l -> d_spec d = sp)
    /\ s_inflight s = List.length (waiting s).
  Proof. exact (shared_fetches rsat canon parse_dep lnode lnode_path lnode_manifest to_package deliver lock root pkg m name Hroot). Qed.
  (** ... while unfinished there is always a next step (queued work, or an outstanding fetch whose answer,
      whatever it is, can be processed) ... *)
  Theorem C03_progress : forall s, reach root s -> finished s = false ->
    (exists r, exec s APop = Some r) \/ (exists k spec, forall o, exists r, exec s (AChunk k [(spec, o)]) = Some r).
  Proof. exact (always_progress rsat canon parse_dep lnode lnode_path lnode_manifest to_package deliver lock root pkg m name Hroot). Qed.
  (** ... and when finished every declared dependency has been linked to an acceptable package. *)
  Theorem C03_complete : forall s, reach root s -> finished s = true -> forall i x sp t,
    declares (s_g s) i x sp t -> exists c, linked (s_g s) i x sp t c /\ acceptable rsat canon deliver (s_g s) c sp.
  Proof. exact (complete rsat canon parse_dep lnode lnode_path lnode_manifest to_package deliver lock root pkg m name Hroot). Qed.
  (** The resolver's own code never panics: given oracles that do not, and lockfile entries with a non-empty path. *)
  Theorem C03_no_panic :
    (forall n s, parse_dep n s <> Panic) ->
    (forall lf path ln, lock = Some lf -> In (path, ln) lf -> to_package ln <> Panic /\ lnode_path ln <> []) ->
    forall s a, reach root s -> legal a -> (forall k l sp, a = AChunk k l -> ~ In (sp, Panic) l) -> exec s a <> Some Panic.
  Proof. exact (no_panic rsat canon parse_dep lnode lnode_path lnode_manifest to_package deliver lock root pkg m name Hroot). Qed.

  (** C04, registries without dependency cycles (there is a rank that strictly decreases from a request to the
      dependencies of the package answering it): every schedule stops after a fixed number of steps.
      Missing: cyclic registries, for which it is false (C04_refuted), and lockfiles. *)
  Theorem C04_acyclic_partial : forall rk B,
    (forall s p m', deliver s (Ok (p, m')) -> List.length (m_deps m' ++ m_opt m') <= B /\
       forall nm str s', In (nm, str) (m_deps m' ++ m_opt m') -> parse_dep nm str = Ok s' -> rk s' < rk s) ->
    exists N, forall n s, steps_nolock root n s -> n <= N.
  Proof. exact (acyclic_terminates rsat canon parse_dep lnode lnode_path lnode_manifest to_package deliver root pkg m name Hroot). Qed.
  (** C04, finite registries without version conflicts, cyclic or not *)
  Theorem C04_no_conflict_partial : forall U B,
    (forall x sp sp' p m', wanted parse_dep deliver root x sp -> wanted parse_dep deliver root x sp' ->
       deliver sp (Ok (p, m')) -> satisfies rsat canon (pk_resolved p) sp' = Ok true) ->
    (forall x sp, wanted parse_dep deliver root x sp -> In x U) ->
    (forall x sp p m', wanted parse_dep deliver root x sp -> deliver sp (Ok (p, m')) -> List.length (m_deps m' ++ m_opt m') <= B) ->
    exists N, forall n s, steps_nolock root n s -> n <= N.
  Proof. exact (no_conflict_terminates rsat canon parse_dep lnode lnode_path lnode_manifest to_package deliver root pkg m name Hroot). Qed.

  (** C05, registries without version conflicts: any two finished runs install the same tree.
      Missing: registries with conflicts, for which it is false (C05_refuted). *)
  Theorem C05_no_conflict_partial :
    (forall x sp sp' p m', wanted parse_dep deliver root x sp -> wanted parse_dep deliver root x sp' ->
       deliver sp (Ok (p, m')) -> satisfies rsat canon (pk_resolved p) sp' = Ok true) ->
    (forall x sp sp' p p' m1 m1', wanted parse_dep deliver root x sp -> wanted parse_dep deliver root x sp' ->
       deliver sp (Ok (p, m1)) -> deliver sp' (Ok (p', m1')) -> pk_resolved p = pk_resolved p' /\ m1 = m1') ->
    forall s s', reach_nolock root s -> reach_nolock root s' -> finished s = true -> finished s' = true ->
    forall path r, tree_res (s_g s) path r <-> tree_res (s_g s') path r.
  Proof. exact (no_conflict_same_tree rsat canon parse_dep lnode lnode_path lnode_manifest to_package deliver root pkg m name Hroot). Qed.

  (** C10: the package the lockfile provides for request (name x, spec sp) of package i comes from the entry for x
      in the deepest node_modules directory on i's path that has a usable entry, and satisfies sp ... *)
  Theorem C10_lockfile_entry : forall g i lf x sp p ln,
    satisfy_from_lockfile rsat canon lnode to_package g i lf x sp = Ok (Some (p, ln)) ->
    satisfies rsat canon (pk_resolved p) sp = Ok true /\
    exists pre suf, node_path g i = pre ++ suf /\ aget lpath_eqb (pre ++ [x]) lf = Some ln /\ to_package ln = Ok (Some p)
      /\ forall pre' suf' ln', node_path g i = pre' ++ suf' -> List.length pre < List.length pre' ->
           aget lpath_eqb (pre' ++ [x]) lf = Some ln' -> to_package ln' = Ok None.
  Proof. exact (lockfile_entry rsat canon lnode to_package). Qed.
  (** ... and when it provides none, the request is sent to the registry (or satisfied by the tree), not dropped. *)
  Theorem C10_falls_back : forall lf s d, lock = Some lf ->
    satisfy_dependency rsat canon (s_g s) d = Ok None ->
    satisfy_from_lockfile rsat canon lnode to_package (s_g s) (d_node d) lf (d_name d) (d_spec d) = Ok None ->
    exists s', process_dep rsat canon parse_dep lnode lnode_path lnode_manifest to_package lock s d = Ok s'
      /\ s_sink s' = s_sink s ++ [d] /\ s_g s' = s_g s.
  Proof. exact (lockfile_fallback rsat canon parse_dep lnode lnode_path lnode_manifest to_package lock). Qed.
End World.
Print Assumptions C01_tree_unique.
Print Assumptions C01_no_clobber.
Print Assumptions C02_links_partial.
Print Assumptions C02_calm_partial.
Print Assumptions C02_barrier_partial.
Print Assumptions C02_offline_partial.
Print Assumptions C03_exactly_once.
Print Assumptions C03_shared_fetches.
Print Assumptions C03_progress.
Print Assumptions C03_complete.
Print Assumptions C03_no_panic.
Print Assumptions C04_acyclic_partial.
Print Assumptions C04_no_conflict_partial.
Print Assumptions C05_no_conflict_partial.
Print Assumptions C10_lockfile_entry.
Print Assumptions C10_falls_back.

(** C02 is false in general: with this registry and order of answers the finished tree makes a package see the
    wrong version of a dependency (root/a/b sees root/a/n 2.0.0 but declares n 1.0.0). *)
Theorem C02_refuted : exists reg root s m,
  new_node ex_parse "root"%string root_pkg m true = Ok root /\ ex_reach reg root s /\ finished s = true /\
  exists i x sp t c, declares (s_g s) i x sp t /\ visible (s_g s) i x c /\ ~ acceptable ex_rsat ex_canon (ex_deliver reg) (s_g s) c sp.
Proof. exact (ex_intro _ reg2 (ex_intro _ root2 (ex_intro _ end2 (ex_intro _ _ (conj root2_new (conj end2_reach (conj end2_finished shadowed))))))). Qed.
Print Assumptions C02_refuted.

(** C04 is false in general: a registry with a single package (a@1.0.0, which depends on a@latest); no schedule ever
    finishes, and there are runs of every length. *)
Theorem C04_refuted : exists reg root m,
  new_node ex_parse "root"%string root_pkg m true = Ok root /\
  (forall s, ex_reach reg root s -> finished s = false) /\ (forall n, exists s, ex_steps reg root n s).
Proof.
  exact (ex_intro _ reg4 (ex_intro _ root4 (ex_intro _ _ (conj root4_new
    (conj (never_finished _ _ _ _ _ _ _ _ reg4_tags _ _ _ _ root4_new root4_tag) reg4_runs_on))))).
Qed.
Print Assumptions C04_refuted.

(** C05 is false in general: two orders of the same two answers put different versions of x at the top. *)
Theorem C05_refuted : exists reg root s s' m,
  new_node ex_parse "root"%string root_pkg m true = Ok root /\ ex_reach reg root s /\ ex_reach reg root s' /\ finished s = true /\ finished s' = true /\
  exists path r, tree_res (s_g s) path r /\ ~ tree_res (s_g s') path r.
Proof.
  exact (ex_intro _ reg5 (ex_intro _ root5 (ex_intro _ end5a (ex_intro _ end5b (ex_intro _ _ (conj root5_new
    (conj end5a_reach (conj end5b_reach (conj eq_refl (conj eq_refl tree_differs)))))))))).
Qed.
Print Assumptions C05_refuted.

(** Hypotheses are met by non-trivial runs: *)
Example C01_C03_nonvacuous : ex_reach reg2 root2 end2 /\ finished end2 = true /\ size (s_g end2) = 6.
Proof. exact (conj end2_reach (conj eq_refl eq_refl)). Qed.
Example C02_barrier_nonvacuous :
  ResolverBarrier.reach_barrier ex_rsat ex_canon ex_parse unit (fun _ => []) (fun _ => no_deps) (fun _ => Ok None) (ex_deliver reg5) root5 end5a
  /\ finished end5a = true /\ size (s_g end5a) = 5.
Proof. exact (conj end5a_barrier (conj eq_refl eq_refl)). Qed.
Example C04_acyclic_nonvacuous : forall n s, ex_steps reg5 root5 n s ->
  n <= pot rk5 1 (init_graph root5) [0] [].
Proof. exact (steps_bound ex_rsat ex_canon ex_parse (ex_deliver reg5) unit _ _ _ rk5 1 reg5_acyclic _ _ _ _ root5_new). Qed.
Example C05_nonvacuous : forall s, ex_reach reg6 root6 s -> finished s = true -> forall path r, tree_res (s_g s) path r <-> tree_res (s_g end6) path r.
Proof.
  exact (fun s Hs Hf => C05_no_conflict_partial ex_rsat ex_canon ex_parse unit _ _ _ (ex_deliver reg6) _ _ _ _ root6_new compat6 same6 s end6 Hs end6_reach Hf eq_refl).
Qed.
Example C04_no_conflict_nonvacuous : exists N, forall n s, ex_steps reg6 root6 n s -> n <= N.
Proof.
  exact (C04_no_conflict_partial ex_rsat ex_canon ex_parse unit _ _ _ (ex_deliver reg6) _ _ _ _ root6_new _ _ compat6 finite6 bounded6).
Qed.
