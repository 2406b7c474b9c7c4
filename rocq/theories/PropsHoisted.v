(** * Properties C15, C16, C17: what the hoisted linker leaves in node_modules, for all previous contents, trees, schedules of
    the concurrent extractions and crash points.
    [hsteps f m g lock w]: an apply of tree [g], started on file system [f] with previous metadata [m], can be in state [w]
    ([w_phase w = Done]: it has ended). [tree_entry contents g q e]: path [q] holds [e] in an exact install of [g]. The
    metadata file is [m], not part of [f]. *)
From Verif Require Import Base Types ResolverModel ResolverProofs ResolverRun ResolverSpec ResolverThms ResolverSteps ResolverFacts
  LockfileModel LockfileGraph PathLookup Fs FsRun HoistedModel HoistedSpec HoistedProofs HoistedThms ResolverExamples HoistedExamples.
Open Scope string_scope.
Open Scope list_scope.

Section World.
  Variable rsat : range -> version -> bool.
  Variable canon : string -> option string.
  Variable parse_dep : string -> string -> res err pspec.
  Variable lnodeT : Type.
  Variable lnode_path : lnodeT -> list string.
  Variable lnode_manifest : lnodeT -> manifest.
  Variable to_package : lnodeT -> res err (option package).
  Variable deliver : pspec -> outcome -> Prop.
  Variable lockf : option (lockpkgs lnodeT).
  Notation reach := (reach rsat canon parse_dep lnodeT lnode_path lnode_manifest to_package deliver lockf).
  Variables (root : node) (pkg : package) (m0 : manifest) (name : string).
  Hypothesis Hroot : new_node parse_dep name pkg m0 true = Ok root.
  Notation theinv := (ResolverFacts.inv rsat canon parse_dep lnodeT lnode_path lnode_manifest to_package deliver lockf root pkg m0 name Hroot).
  Variable requested : pspec -> string.
  Variable gitshow : gitinfo -> string.
  Variable contents : resolution -> list (path * string).
  Hypothesis Hcont : plain_contents contents.
  Notation hsteps := (hsteps requested gitshow contents).
  Notation in_nm q := (prefix ["node_modules"] q).
  (** [resolved s]: [s] is a state of a resolution whose packages all have names npm accepts *)
  Definition resolved (s : st) : Prop := reach root s /\ good_graph (s_g s).

  Lemma rel_nm s : resolved s -> forall q e, tree_entry contents (s_g s) q e -> in_nm q.
  Proof. intros [R Hg] q e H. destruct (theinv s R) as [I]. eapply entry_under; eauto. eapply root_no_child; eauto. Qed.

  (** C15, without a trusted previous install (no metadata, or a store of the other linker): whatever was in node_modules, a
      completed apply leaves exactly the tree there. *)
  Theorem C15_fresh : forall s f m lock w, resolved s ->
    (m = None \/ f ["node_modules"; ".oro-store"] <> None) -> (f ["node_modules"] = None \/ f ["node_modules"] = Some EDir) ->
    hsteps f m (s_g s) lock w -> w_phase _ w = Done ->
    (forall q e, in_nm q -> (w_fs _ w q = Some e <-> tree_entry contents (s_g s) q e)) /\ w_meta _ w = Some lock.
  Proof.
    intros s f m lock w H Hm Hn S D. pose proof H as [R Hg]. destruct (theinv s R) as [I].
    assert (Hw : wipes f m = true) by (destruct m; [destruct Hm as [Hm|Hm]; [discriminate|]; cbn; fold store_name in Hm |- *; destruct (f _); congruence | reflexivity]).
    eapply (run_exact requested gitshow contents Hcont rsat canon deliver _ _ _ I Hg lock (fun q => in_nm q)); eauto.
    - exact (rel_nm s H).
    - eapply wipe_trusted; eauto.
  Qed.
  (** C15, on top of a previous exact install of any tree [g0]: exact again, if nothing changed that pruning does not look at.
      [rel] is the set of paths considered: all that the two trees use, and whatever else in node_modules one likes (files left
      by install scripts and node_modules/.bin may be left out). Missing: hidden changes (C15_refuted). *)
  Theorem C15_partial : forall g0 s f a lock w (rel : path -> Prop), good_graph g0 -> resolved s ->
    (forall q e, tree_entry contents g0 q e \/ tree_entry contents (s_g s) q e -> rel q) ->
    (forall q e, rel q -> (f q = Some e <-> tree_entry contents g0 q e)) ->
    f ["node_modules"; ".oro-store"] = None ->
    no_hidden_change requested gitshow g0 (s_g s) a ->
    hsteps f (Some a) (s_g s) lock w -> w_phase _ w = Done ->
    (forall q e, rel q -> (w_fs _ w q = Some e <-> tree_entry contents (s_g s) q e)) /\ w_meta _ w = Some lock.
  Proof.
    intros g0 s f a lock w rel Hg0 [R Hg] Hrel0 Hf Hst Hnc S D. destruct (theinv s R) as [I].
    assert (Hrel : forall q e, tree_entry contents (s_g s) q e -> rel q) by (intros; eapply Hrel0; eauto).
    eapply (run_exact requested gitshow contents Hcont rsat canon deliver _ _ _ I Hg lock rel); eauto.
    eapply upgrade_trusted with (g0 := g0); eauto. cbn. fold store_name in Hst. now rewrite Hst.
  Qed.
  (** applying the same tree again changes nothing, whatever metadata was recorded *)
  Theorem C15_again : forall s f m lock w, resolved s ->
    (forall q e, in_nm q -> (f q = Some e <-> tree_entry contents (s_g s) q e)) ->
    hsteps f m (s_g s) lock w -> w_phase _ w = Done ->
    (forall q e, in_nm q -> (w_fs _ w q = Some e <-> tree_entry contents (s_g s) q e)) /\ w_meta _ w = Some lock.
  Proof.
    intros s f m lock w H Hf S D. pose proof H as [R Hg]. destruct (theinv s R) as [I].
    eapply (run_exact requested gitshow contents Hcont rsat canon deliver _ _ _ I Hg lock (fun q => in_nm q)); eauto; [exact (rel_nm s H)|].
    apply exact_trusted; [intros q e Hw; eapply rel_nm; [exact H|]; eapply wanted_spec; eauto|].
    intros q e Hq. rewrite (wanted_spec contents rsat canon deliver _ _ _ I Hg q e). auto.
  Qed.
  (** in all these cases nothing outside node_modules is touched, at any moment *)
  Theorem C15_outside : forall s f m lock w, resolved s ->
    (m = None \/ f ["node_modules"; ".oro-store"] <> None) -> (f ["node_modules"] = None \/ f ["node_modules"] = Some EDir) ->
    hsteps f m (s_g s) lock w -> forall q, ~ in_nm q -> w_fs _ w q = f q.
  Proof.
    intros s f m lock w H Hm Hn S. pose proof H as [R Hg]. destruct (theinv s R) as [I].
    assert (Hw : wipes f m = true) by (destruct m; [destruct Hm as [Hm|Hm]; [discriminate|]; cbn; fold store_name in Hm |- *; destruct (f _); congruence | reflexivity]).
    eapply (run_outside requested gitshow contents Hcont rsat canon deliver _ _ _ I Hg lock (fun q => in_nm q)); eauto; [exact (rel_nm s H)|].
    eapply wipe_trusted; eauto.
  Qed.
  (** an apply on a finite file system can be completed: no step is ever blocked by a leftover file *)
  Theorem C15_completes : forall s f m lock l, resolved s -> (forall q, f q <> None -> In q l) ->
    (m = None \/ f ["node_modules"; ".oro-store"] <> None) -> (f ["node_modules"] = None \/ f ["node_modules"] = Some EDir) ->
    exists w, hsteps f m (s_g s) lock w /\ w_phase _ w = Done.
  Proof.
    intros s f m lock l H Hl Hm Hn. pose proof H as [R Hg]. destruct (theinv s R) as [I].
    assert (Hw : wipes f m = true) by (destruct m; [destruct Hm as [Hm|Hm]; [discriminate|]; cbn; fold store_name in Hm |- *; destruct (f _); congruence | reflexivity]).
    eapply (run_can_complete requested gitshow contents Hcont rsat canon deliver _ _ _ I Hg lock (fun q => in_nm q)); eauto; [exact (rel_nm s H)|].
    eapply wipe_trusted; eauto.
  Qed.

  (** C16: when pruning is over, an unscoped top-level package directory is untouched if the recorded entry and the new
      tree's entry are equal, and gone otherwise. Missing: scoped packages, which are never removed (C16_refuted). *)
  Theorem C16_partial : forall s f a lock w, resolved s -> f ["node_modules"; ".oro-store"] = None ->
    hsteps f (Some a) (s_g s) lock w -> w_phase _ w = Extracting (hinsts contents (s_g s)) [] ->
    forall x rest, plain x ->
      (same_entry requested gitshow a (s_g s) x -> w_fs _ w ("node_modules" :: x :: rest) = f ("node_modules" :: x :: rest))
      /\ (~ same_entry requested gitshow a (s_g s) x -> w_fs _ w ("node_modules" :: x :: rest) = None).
  Proof.
    intros s f a lock w [R Hg] Hst S D x rest Hx. destruct (theinv s R) as [I]. destruct (prune_result requested gitshow contents Hcont rsat canon deliver _ _ _ I Hg _ _ _ _ S D) as [A B].
    assert (Hw : wipes f (Some a) = false) by (cbn; fold store_name in Hst; now rewrite Hst).
    pose proof (condemned_top requested gitshow rsat canon deliver _ _ _ I f a x rest Hw Hx) as C. split; intros H.
    - apply A. rewrite C. tauto.
    - apply B. now apply C.
  Qed.
  (** and any other entry of node_modules is gone if no package of that name is wanted, except node_modules/.bin, scopes and
      the metadata file *)
  Theorem C16_strays : forall s f a lock w, resolved s -> f ["node_modules"; ".oro-store"] = None ->
    hsteps f (Some a) (s_g s) lock w -> w_phase _ w = Extracting (hinsts contents (s_g s)) [] ->
    forall x rest, x <> "node_modules" -> starts_at x = false -> x <> ".bin" -> x <> ".orogene-meta.kdl" -> (forall i, ~ installed_at (s_g s) i [ufold x]) ->
    w_fs _ w ("node_modules" :: x :: rest) = None.
  Proof.
    intros s f a lock w [R Hg] Hst S D x rest H1 H2 H3 H4 H5. destruct (theinv s R) as [I]. destruct (prune_result requested gitshow contents Hcont rsat canon deliver _ _ _ I Hg _ _ _ _ S D) as [_ B].
    assert (Hw : wipes f (Some a) = false) by (cbn; fold store_name in Hst; now rewrite Hst). apply B.
    apply condemned_stray; auto.
    - unfold special. rewrite H2, orb_false_r. now apply String.eqb_neq.
    - destruct (child_of (s_g s) 0 (ufold x)) as [i|] eqn:E; [|auto]. destruct (H5 i). eapply installed_one; eauto.
  Qed.
  (** scoped packages are never touched by pruning *)
  Theorem C16_scoped : forall s f a lock w, resolved s -> f ["node_modules"; ".oro-store"] = None ->
    hsteps f (Some a) (s_g s) lock w -> w_phase _ w = Extracting (hinsts contents (s_g s)) [] ->
    forall sc rest, ~ In "node_modules" rest -> w_fs _ w ("node_modules" :: String "@" sc :: rest) = f ("node_modules" :: String "@" sc :: rest).
  Proof.
    intros s f a lock w [R Hg] Hst S D sc rest Hr. destruct (theinv s R) as [I]. destruct (prune_result requested gitshow contents Hcont rsat canon deliver _ _ _ I Hg _ _ _ _ S D) as [A _].
    assert (Hw : wipes f (Some a) = false) by (cbn; fold store_name in Hst; now rewrite Hst). apply A. now apply scoped_kept.
  Qed.
  (** what it means that the recorded entry is the new one: same source, version, integrity and declared dependencies *)
  Theorem C16_same_entry : forall s a x, reach root s -> same_entry requested gitshow a (s_g s) x ->
    exists old i n, aget ueqb x a = Some old /\ installed_at (s_g s) i [x] /\ getn (s_g s) i = Some n
      /\ l_resolved old = Some (match pk_resolved (n_pkg n) with RNpm _ _ t _ => t | RDir _ p => p | RGit _ info => gitshow info end)
      /\ match pk_resolved (n_pkg n) with RNpm _ w _ i => exists w', l_version old = Some w' /\ version_eqb w' w = true /\ l_integrity old = i | _ => l_version old = None end.
  Proof.
    intros s a x R (old & i & new & Ha & Hi & Hn & He). unfold node_lnode in Hn. destruct (getn (s_g s) i) as [n|] eqn:En; [|discriminate].
    injection Hn as <-. exists old, i, n. split; [auto|]. split; [auto|]. split; [auto|]. unfold lnode_eqb in He. cbn in He.
    rewrite !andb_true_iff in He. destruct He as (((((((((_ & _) & _) & H1) & H2) & H3) & _) & _) & _) & _).
    assert (OS : forall p q, ostr_eqb p q = true -> p = q).
    { intros [p|] [q|]; cbn; try discriminate; auto. intros E. apply String.eqb_eq in E. congruence. }
    apply OS in H1, H3. split; [exact H1|]. destruct (pk_resolved (n_pkg n)); destruct (l_version old) as [w'|]; try discriminate; auto.
    exists w'. auto.
  Qed.

  (** C17: any number of runs of one tree that are killed at any point, followed by one that completes, leave exactly the
      tree. Started without metadata, or on an exact install of another tree without hidden changes. Missing: other trees
      applied in between, new scoped packages (C17_refuted, C17_scoped_refuted). *)
  Theorem C17_fresh : forall s f lock f1 m1 w, resolved s -> (f ["node_modules"] = None \/ f ["node_modules"] = Some EDir) ->
    attempts requested gitshow contents (s_g s) lock f None f1 m1 ->
    hsteps f1 m1 (s_g s) lock w -> w_phase _ w = Done ->
    (forall q e, in_nm q -> (w_fs _ w q = Some e <-> tree_entry contents (s_g s) q e)) /\ w_meta _ w = Some lock.
  Proof.
    intros s f lock f1 m1 w H Hn A S D. pose proof H as [R Hg]. destruct (theinv s R) as [I].
    assert (Hst : in_nm ["node_modules"; store_name]) by (exists [store_name]; reflexivity).
    assert (F : fine requested gitshow contents (s_g s) (fun q => in_nm q) f1 m1).
    { eapply (fine_attempts requested gitshow contents Hcont rsat canon deliver _ _ _ I Hg lock (fun q => in_nm q) (rel_nm s H)); [auto|exact Hst| |exact A].
      split; auto. }
    eapply (run_exact requested gitshow contents Hcont rsat canon deliver _ _ _ I Hg lock (fun q => in_nm q) (rel_nm s H)); eauto.
    eapply fine_trusted; eauto.
  Qed.
  Theorem C17_partial : forall g0 s f a lock f1 m1 w, good_graph g0 -> resolved s ->
    (forall q e, in_nm q -> (f q = Some e <-> tree_entry contents g0 q e)) ->
    no_hidden_change requested gitshow g0 (s_g s) a ->
    attempts requested gitshow contents (s_g s) lock f (Some a) f1 m1 ->
    hsteps f1 m1 (s_g s) lock w -> w_phase _ w = Done ->
    (forall q e, in_nm q -> (w_fs _ w q = Some e <-> tree_entry contents (s_g s) q e)) /\ w_meta _ w = Some lock.
  Proof.
    intros g0 s f a lock f1 m1 w Hg0 H Hf Hnc A S D. pose proof H as [R Hg]. destruct (theinv s R) as [I].
    assert (Hst : in_nm ["node_modules"; store_name]) by (exists [store_name]; reflexivity).
    assert (Est : f ["node_modules"; store_name] = None).
    { destruct (f ["node_modules"; store_name]) as [e|] eqn:E; [|auto]. apply Hf in E; [|exact Hst].
      destruct (store_not_entry contents g0 e Hg0 E). }
    assert (F : fine requested gitshow contents (s_g s) (fun q => in_nm q) f1 m1).
    { eapply (fine_attempts requested gitshow contents Hcont rsat canon deliver _ _ _ I Hg lock (fun q => in_nm q) (rel_nm s H)); [auto|exact Hst| |exact A].
      split.
      - destruct (f ["node_modules"]) as [e|] eqn:E; [|left; exact E]. right. rewrite E. f_equal. apply Hf in E; [|apply prefix_refl].
        exact (nm_entry contents g0 e Hg0 E).
      - right. split; [exact Est|]. eapply upgrade_trusted with (g0 := g0); eauto; [exact (rel_nm s H)|]. cbn. now rewrite Est. }
    eapply (run_exact requested gitshow contents Hcont rsat canon deliver _ _ _ I Hg lock (fun q => in_nm q) (rel_nm s H)); eauto.
    eapply fine_trusted; eauto.
  Qed.
End World.

(** ** concrete installs. [fresh g]: a first install of [g] that has ended *)
Notation ex_entry := (tree_entry ex_contents).
Notation ex_resolved reg root := (resolved ex_rsat ex_canon ex_parse unit (fun _ => []) (fun _ => no_deps) (fun _ => Ok None) (ex_deliver reg) None root).
Definition g_a := s_g (end8 (v 1 1)).
Definition g_b := s_g (end8 (v 2 0)).
Lemma resolved8 n : ex_run (init root8) (sched8 n) <> None -> good_graphb (s_g (end8 n)) = true -> ex_resolved (reg8 n) root8 (end8 n).
Proof. intros H G. split; [now apply end8_reach | now apply good_graphb_spec]. Qed.
Lemma resolved_a : ex_resolved (reg8 (v 1 1)) root8 (end8 (v 1 1)).
Proof. apply resolved8; [vm_compute; discriminate | vm_compute; reflexivity]. Qed.
Lemma resolved_b : ex_resolved (reg8 (v 2 0)) root8 (end8 (v 2 0)).
Proof. apply resolved8; [vm_compute; discriminate | vm_compute; reflexivity]. Qed.
Lemma root8_new : new_node ex_parse "root" root_pkg man8 true = Ok root8.
Proof. reflexivity. Qed.
Lemma resolved_one reg name spec r : ex_run (init (mk_root (man [(name, spec)]))) [APop; AChunk 1 [rs reg (npm name r)]; APop] <> None ->
  good_graphb (s_g (one reg name spec r)) = true -> ex_resolved reg (mk_root (man [(name, spec)])) (one reg name spec r).
Proof. intros H G. split; [now apply one_reach | now apply good_graphb_spec]. Qed.
Lemma one_new name spec : spec = "1.0.0" \/ spec = "2.0.0" -> new_node ex_parse "root" root_pkg (man [(name, spec)]) true = Ok (mk_root (man [(name, spec)])).
Proof. intros [-> | ->]; reflexivity. Qed.

(** C15_fresh applies to a real install: package a with its own copy of x, beside the top-level x *)
Lemma fresh_exact reg root pkg m name s : new_node ex_parse name pkg m true = Ok root -> ex_resolved reg root s -> ready (s_g s) -> w_phase _ (fresh (s_g s)) = Done ->
  (forall q e, prefix ["node_modules"] q -> (w_fs _ (fresh (s_g s)) q = Some e <-> ex_entry (s_g s) q e)) /\ w_meta _ (fresh (s_g s)) = Some (ex_lock (s_g s)).
Proof.
  intros Hn H Hr D. eapply (C15_fresh _ _ _ _ _ _ _ _ _ _ _ _ _ Hn ex_requested ex_gitshow ex_contents ex_plain s empty_fs None); eauto.
  now apply fresh_run.
Qed.
Example C15_install : (forall q e, prefix ["node_modules"] q -> (w_fs _ (fresh g_a) q = Some e <-> ex_entry g_a q e))
  /\ w_fs _ (fresh g_a) ["node_modules"; "a"; "node_modules"; "x"; "lib"; "index.js"] = Some (EFile "1.1")
  /\ w_fs _ (fresh g_a) ["node_modules"; "x"; "lib"; "index.js"] = Some (EFile "1.0").
Proof.
  split; [|split; vm_compute; reflexivity].
  apply (fresh_exact _ _ _ _ _ _ root8_new resolved_a); vm_compute; reflexivity.
Qed.

(** The full C15 fails: package a is unchanged (same version, same request "latest" for x), so pruning does not look inside
    it, and its private copy of x stays at the old version although the new tree has another one. *)
Definition stale : world (list (string * lnode)) :=
  getw (ex_orun (w_fs _ (fresh g_a)) (Some (ex_lock g_a)) g_b (supp_h g_a) [OPruned; OStart; OPut 0; OStart; OStart; OStart; ODone]).
Lemma stale_run : ex_hsteps (w_fs _ (fresh g_a)) (Some (ex_lock g_a)) g_b stale.
Proof. eapply ex_orun_sound; [apply fresh_supp; vm_compute; reflexivity|]. apply isSome_getw. vm_compute. reflexivity. Qed.
Lemma pkg_at_path g i n names : (forall j x, child_of g j x <> Some 0) -> installed_at g i names -> names <> [] -> getn g i = Some n -> pkg_at g names (pk_resolved (n_pkg n)).
Proof. intros Hr Hi Hne Hn. exists i, n. split; [auto|]. split; [|auto]. intros ->. apply Hne. now apply (installed_zero g Hr 0 names). Qed.
Lemma b_has_2 : ex_entry g_b ["node_modules"; "a"; "node_modules"; "x"; "lib"; "index.js"] (EFile "2.0").
Proof.
  change ["node_modules"; "a"; "node_modules"; "x"; "lib"; "index.js"] with (disk ["a"; "x"] ++ ["lib"; "index.js"]).
  apply te_file with (r := RNpm "x" (v 2 0) "x" None); [|vm_compute; auto].
  exists 3. eexists. split; [|split; [discriminate | split; [vm_compute; reflexivity | reflexivity]]].
  apply (at_child _ 1 ["a"]); [apply (at_child _ 0 []); [constructor | vm_compute; reflexivity] | vm_compute; reflexivity].
Qed.
Theorem C15_refuted : exists reg reg' root s0 s f lock0 lock w q old new,
  ex_resolved reg root s0 /\ ex_resolved reg' root s /\ finished s0 = true /\ finished s = true
  (* a first install, of s0 *)
  /\ (exists w0, hsteps ex_requested ex_gitshow ex_contents empty_fs None (s_g s0) lock0 w0 /\ w_phase _ w0 = Done /\ w_fs _ w0 = f /\ w_meta _ w0 = Some lock0)
  (* then the same project again, after a new version of a dependency was published *)
  /\ hsteps ex_requested ex_gitshow ex_contents f (Some lock0) (s_g s) lock w /\ w_phase _ w = Done
  /\ ex_entry (s_g s) q (EFile new) /\ w_fs _ w q = Some (EFile old) /\ old <> new.
Proof.
  exists (reg8 (v 1 1)), (reg8 (v 2 0)), root8, (end8 (v 1 1)), (end8 (v 2 0)), (w_fs _ (fresh g_a)), (ex_lock g_a), (ex_lock g_b), stale,
    ["node_modules"; "a"; "node_modules"; "x"; "lib"; "index.js"], "1.1", "2.0".
  split; [exact resolved_a|]. split; [exact resolved_b|]. split; [vm_compute; reflexivity|]. split; [vm_compute; reflexivity|]. split.
  { exists (fresh g_a). split; [apply fresh_run; vm_compute; reflexivity|]. split; [vm_compute; reflexivity|]. split; [reflexivity|].
    apply (fresh_exact _ _ _ _ _ _ root8_new resolved_a); vm_compute; reflexivity. }
  split; [exact stale_run|]. split; [vm_compute; reflexivity|]. split; [exact b_has_2|]. split; [vm_compute; reflexivity | discriminate].
Qed.

(** C16: a stale scoped package survives: @s/y was installed, the new tree (foo) does not have it *)
Definition g_s := s_g scoped.
Definition g_foo1 := s_g foo1.
Definition g_foo2 := s_g foo2.
Lemma resolved_scoped : ex_resolved reg7 (mk_root (man [("@s/y", "1.0.0")])) scoped.
Proof. apply resolved_one; [vm_compute; discriminate | vm_compute; reflexivity]. Qed.
Lemma resolved_foo1 : ex_resolved reg7 (mk_root (man [("foo", "1.0.0")])) foo1.
Proof. apply resolved_one; [vm_compute; discriminate | vm_compute; reflexivity]. Qed.
Lemma resolved_foo2 : ex_resolved reg7 (mk_root (man [("foo", "2.0.0")])) foo2.
Proof. apply resolved_one; [vm_compute; discriminate | vm_compute; reflexivity]. Qed.
Definition kept_scoped : world (list (string * lnode)) :=
  getw (ex_orun (w_fs _ (fresh g_s)) (Some (ex_lock g_s)) g_foo1 (supp_h g_s) (OPruned :: OStart :: OPut 0 :: OStart :: OPut 0 :: OPut 0 :: OPut 0 :: [ODone])).
Lemma not_installed_scoped : forall i names, ~ installed_at g_foo1 i ("@s/y" :: names).
Proof.
  intros i names H. remember ("@s/y" :: names) as l eqn:E. revert names E. induction H as [|p path y c H IH Hc]; intros names E; [discriminate|].
  destruct path as [|z path]; [|injection E as -> _; eapply IH; reflexivity]. injection E as -> _. inversion H; subst; [vm_compute in Hc; discriminate | destruct path; discriminate].
Qed.
Theorem C16_refuted : exists reg root root' s0 s w,
  ex_resolved reg root s0 /\ ex_resolved reg root' s /\ finished s = true
  /\ hsteps ex_requested ex_gitshow ex_contents (w_fs _ (fresh (s_g s0))) (w_meta _ (fresh (s_g s0))) (s_g s) (ex_lock (s_g s)) w /\ w_phase _ w = Done
  /\ (forall i names, ~ installed_at (s_g s) i ("@s/y" :: names))
  /\ w_fs _ w ["node_modules"; "@s"; "y"; "package.json"] <> None.
Proof.
  exists reg7, (mk_root (man [("@s/y", "1.0.0")])), (mk_root (man [("foo", "1.0.0")])), scoped, foo1, kept_scoped.
  split; [exact resolved_scoped|]. split; [exact resolved_foo1|]. split; [vm_compute; reflexivity|].
  pose proof (fresh_exact _ _ _ _ _ _ (one_new "@s/y" "1.0.0" (or_introl eq_refl)) resolved_scoped ltac:(vm_compute; reflexivity) ltac:(vm_compute; reflexivity)) as [_ ->].
  split; [eapply ex_orun_sound; [apply fresh_supp; vm_compute; reflexivity|]; apply isSome_getw; vm_compute; reflexivity|].
  split; [vm_compute; reflexivity|]. split; [exact not_installed_scoped|]. vm_compute. discriminate.
Qed.
(** C16 on an upgrade of foo: the old directory is gone after pruning, a file in node_modules that belongs to nobody too *)
Definition pruned_foo : world (list (string * lnode)) :=
  getw (ex_orun (w_fs _ (fresh g_foo1)) (Some (ex_lock g_foo1)) g_foo2 (supp_h g_foo1)
    [ORemove ["node_modules"; "foo"; "lib"; "index.js"]; ORemove ["node_modules"; "foo"; "lib"]; ORemove ["node_modules"; "foo"; "package.json"]; ORemove ["node_modules"; "foo"]; OPruned]).
Lemma pruned_foo_run : ex_hsteps (w_fs _ (fresh g_foo1)) (Some (ex_lock g_foo1)) g_foo2 pruned_foo.
Proof. eapply ex_orun_sound; [apply fresh_supp; vm_compute; reflexivity|]; apply isSome_getw; vm_compute; reflexivity. Qed.
Example C16_upgrade : w_phase _ pruned_foo = Extracting (hinsts ex_contents g_foo2) [] /\ plain "foo"
  /\ ~ same_entry ex_requested ex_gitshow (ex_lock g_foo1) g_foo2 "foo" /\ w_fs _ pruned_foo ["node_modules"; "foo"; "package.json"] = None.
Proof.
  split; [vm_compute; reflexivity|]. split; [apply plainb_spec; vm_compute; reflexivity|]. split; [|vm_compute; reflexivity].
  intros (old & i & new & Ha & Hi & Hn & He).
  apply installed_one in Hi. vm_compute in Hi. injection Hi as <-. vm_compute in Ha. injection Ha as <-. vm_compute in Hn. injection Hn as <-. vm_compute in He. discriminate.
Qed.

(** C17 fails for histories of different trees: foo@1 installed; an apply of foo@2 is killed after it has recreated the
    directory; going back to foo@1 keeps the half-empty directory, because the metadata still says foo@1. *)
Definition killed_foo : world (list (string * lnode)) :=
  getw (ex_orun (w_fs _ (fresh g_foo1)) (Some (ex_lock g_foo1)) g_foo2 (supp_h g_foo1)
    [ORemove ["node_modules"; "foo"; "lib"; "index.js"]; ORemove ["node_modules"; "foo"; "lib"]; ORemove ["node_modules"; "foo"; "package.json"]; ORemove ["node_modules"; "foo"]; OPruned;
     OStart; OPut 0; OStart; OPut 0]).
Lemma killed_foo_run : ex_hsteps (w_fs _ (fresh g_foo1)) (Some (ex_lock g_foo1)) g_foo2 killed_foo.
Proof. eapply ex_orun_sound; [apply fresh_supp; vm_compute; reflexivity|]; apply isSome_getw; vm_compute; reflexivity. Qed.
Lemma killed_foo_supp : forall q, w_fs _ killed_foo q <> None -> In q (supp_h g_foo1 ++ supp_h g_foo2).
Proof. apply (ex_supp _ _ _ _ _ (fresh_supp g_foo1 ltac:(vm_compute; reflexivity)) killed_foo_run). Qed.
Definition reverted : world (list (string * lnode)) :=
  getw (ex_orun (w_fs _ killed_foo) (Some (ex_lock g_foo1)) g_foo1 (supp_h g_foo1 ++ supp_h g_foo2) [OPruned; OStart; OPut 0; OStart; ODone]).
Lemma killed_meta : w_meta _ killed_foo = Some (ex_lock g_foo1).
Proof. vm_compute. reflexivity. Qed.
Lemma foo1_entry : ex_entry g_foo1 ["node_modules"; "foo"; "package.json"] (EFile "1.0").
Proof.
  change ["node_modules"; "foo"; "package.json"] with (disk ["foo"] ++ ["package.json"]).
  apply te_file with (r := RNpm "foo" (v 1 0) "foo" None); [|vm_compute; auto].
  exists 1. eexists. split; [|split; [discriminate | split; [vm_compute; reflexivity | reflexivity]]]. apply (at_child _ 0 []); [constructor | vm_compute; reflexivity].
Qed.
Theorem C17_refuted : exists reg root root' s1 s2 w w',
  ex_resolved reg root s1 /\ ex_resolved reg root' s2
  /\ hsteps ex_requested ex_gitshow ex_contents (w_fs _ (fresh (s_g s1))) (Some (ex_lock (s_g s1))) (s_g s2) (ex_lock (s_g s2)) w
  /\ hsteps ex_requested ex_gitshow ex_contents (w_fs _ w) (w_meta _ w) (s_g s1) (ex_lock (s_g s1)) w' /\ w_phase _ w' = Done
  /\ exists q e, ex_entry (s_g s1) q e /\ w_fs _ w' q = None.
Proof.
  exists reg7, (mk_root (man [("foo", "1.0.0")])), (mk_root (man [("foo", "2.0.0")])), foo1, foo2, killed_foo, reverted.
  split; [exact resolved_foo1|]. split; [exact resolved_foo2|]. split; [exact killed_foo_run|]. rewrite killed_meta.
  split; [eapply ex_orun_sound; [exact killed_foo_supp|]; apply isSome_getw; vm_compute; reflexivity|]. split; [vm_compute; reflexivity|].
  exists ["node_modules"; "foo"; "package.json"], (EFile "1.0"). split; [exact foo1_entry | vm_compute; reflexivity].
Qed.
(** and even for one tree, if it has a new scoped package: the half-extracted directory is never completed *)
Definition killed_scoped : world (list (string * lnode)) :=
  getw (ex_orun (w_fs _ (fresh g_foo1)) (Some (ex_lock g_foo1)) g_s (supp_h g_foo1)
    [ORemove ["node_modules"; "foo"; "lib"; "index.js"]; ORemove ["node_modules"; "foo"; "lib"]; ORemove ["node_modules"; "foo"; "package.json"]; ORemove ["node_modules"; "foo"]; OPruned;
     OStart; OPut 0; OStart; OPut 0]).
Lemma killed_scoped_run : ex_hsteps (w_fs _ (fresh g_foo1)) (Some (ex_lock g_foo1)) g_s killed_scoped.
Proof. eapply ex_orun_sound; [apply fresh_supp; vm_compute; reflexivity|]; apply isSome_getw; vm_compute; reflexivity. Qed.
Definition again_scoped : world (list (string * lnode)) :=
  getw (ex_orun (w_fs _ killed_scoped) (Some (ex_lock g_foo1)) g_s (supp_h g_foo1 ++ supp_h g_s) [OPruned; OStart; OPut 0; OStart; ODone]).
Theorem C17_scoped_refuted : exists reg root root' s1 s2 w w',
  ex_resolved reg root s1 /\ ex_resolved reg root' s2
  /\ hsteps ex_requested ex_gitshow ex_contents (w_fs _ (fresh (s_g s1))) (Some (ex_lock (s_g s1))) (s_g s2) (ex_lock (s_g s2)) w
  /\ hsteps ex_requested ex_gitshow ex_contents (w_fs _ w) (w_meta _ w) (s_g s2) (ex_lock (s_g s2)) w' /\ w_phase _ w' = Done
  /\ exists q e, ex_entry (s_g s2) q e /\ w_fs _ w' q = None.
Proof.
  exists reg7, (mk_root (man [("foo", "1.0.0")])), (mk_root (man [("@s/y", "1.0.0")])), foo1, scoped, killed_scoped, again_scoped.
  split; [exact resolved_foo1|]. split; [exact resolved_scoped|]. split; [exact killed_scoped_run|].
  assert (w_meta _ killed_scoped = Some (ex_lock g_foo1)) as -> by (vm_compute; reflexivity).
  split; [eapply ex_orun_sound; [apply (ex_supp _ _ _ _ _ (fresh_supp g_foo1 ltac:(vm_compute; reflexivity)) killed_scoped_run)|]; apply isSome_getw; vm_compute; reflexivity|].
  split; [vm_compute; reflexivity|].
  exists ["node_modules"; "@s"; "y"; "package.json"], (EFile "1.0"). split; [|vm_compute; reflexivity].
  change ["node_modules"; "@s"; "y"; "package.json"] with (disk ["@s/y"] ++ ["package.json"]).
  apply te_file with (r := RNpm "@s/y" (v 1 0) "@s/y" None); [|vm_compute; auto].
  exists 1. eexists. split; [|split; [discriminate | split; [vm_compute; reflexivity | reflexivity]]]. apply (at_child _ 0 []); [constructor | vm_compute; reflexivity].
Qed.
(** C15_partial and C17_partial apply to an upgrade: foo@1 to foo@2 has no hidden change *)
Lemma only_foo g i names : (g = g_foo1 \/ g = g_foo2) -> installed_at g i names -> i = 0 /\ names = [] \/ i = 1 /\ names = ["foo"].
Proof.
  intros Hg H. induction H as [|p path y c H IH Hc]; [auto|]. right.
  assert (E : p = 0 /\ y = "foo" /\ c = 1).
  { destruct IH as [[-> _]|[-> _]]; destruct Hg as [-> | ->]; unfold child_of in Hc; vm_compute in Hc; try discriminate.
    - destruct (String.eqb_spec y "foo") as [->|Hn]; [injection Hc as <-; auto|]. exfalso. revert Hc Hn. clear. intros Hc Hn.
      change (sget y [("foo", 1)] = Some c) in Hc. cbn [aget] in Hc. apply String.eqb_neq in Hn. rewrite Hn in Hc. discriminate.
    - destruct (String.eqb_spec y "foo") as [->|Hn]; [injection Hc as <-; auto|]. exfalso. revert Hc Hn. clear. intros Hc Hn.
      change (sget y [("foo", 1)] = Some c) in Hc. cbn [aget] in Hc. apply String.eqb_neq in Hn. rewrite Hn in Hc. discriminate. }
  destruct E as (-> & -> & ->). destruct IH as [[_ ->]|[E _]]; [auto | discriminate].
Qed.
Example no_hidden_foo : no_hidden_change ex_requested ex_gitshow g_foo1 g_foo2 (ex_lock g_foo1).
Proof.
  intros x t r H. assert (Hx : x <> "foo").
  { intros ->. apply C16_upgrade. apply H. apply C16_upgrade. }
  split; intros (i & n & Hi & _); exfalso; [destruct (only_foo g_foo1 i (x :: t) (or_introl eq_refl) Hi) as [[_ E]|[_ E]] | destruct (only_foo g_foo2 i (x :: t) (or_intror eq_refl) Hi) as [[_ E]|[_ E]]];
    congruence.
Qed.

Print Assumptions C15_fresh.
Print Assumptions C15_partial.
Print Assumptions C15_again.
Print Assumptions C15_outside.
Print Assumptions C15_completes.
Print Assumptions C15_refuted.
Print Assumptions C16_partial.
Print Assumptions C16_strays.
Print Assumptions C16_scoped.
Print Assumptions C16_same_entry.
Print Assumptions C16_refuted.
Print Assumptions C17_fresh.
Print Assumptions C17_partial.
Print Assumptions C17_refuted.
Print Assumptions C17_scoped_refuted.
