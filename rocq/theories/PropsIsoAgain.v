(** * C59 with the isolated linker: applying an unchanged project again changes nothing but for links that come back.
    Vocabulary: PropsAgain (for [reach], [steps], [same_tree], the lockfile), IsoAgainSpec ([all_laid g f]: node_modules has exactly
    the packages, files and links of tree [g]; [links_missing g f f1]: [f1] is [f] without some links to dependencies),
    IsolatedSpec ([no_collision]: no two of the paths have the same 8-digit hash), IsolatedModel ([isteps f m g lock w]: an apply
    of [g] with the isolated linker begun on [f] with recorded metadata [m] can be in state [w]). *)
From Verif Require Import Base Types Kdl ResolverModel ResolverProofs ResolverRun ResolverSpec ResolverThms ResolverSteps ResolverTerm ResolverFacts ResolverExamples
  LockfileModel LockfileSpec LockfileProofs LockfileGraph LockfileFacts LockfileReplay LockfileReplayRun LockfileView LockfileText PropsReplay
  PathLookup Fs FsRun FsPlain HoistedModel HoistedSpec HoistedProofs HoistedThms HoistedAgain HoistedExamples PropsAgain IsolatedModel IsolatedSpec IsolatedProofs IsolatedThms IsoAgainSpec IsoAgain PropsIsolated.
From Coq Require Import Permutation.
Open Scope string_scope.
Open Scope list_scope.

(** the same tree is laid out the same way *)
Section SameLayout.
  Variable hex8 : string -> string.
  Variable contents : resolution -> list (path * string).
  Hypothesis Hsrc : forall r r', source r = source r' -> contents r = contents r'.
  Notation laid := (laid hex8 contents).
  Lemma same_laid g g' q e : same_tree g g' -> (forall i x, child_of g' i x <> Some 0) -> laid g q e -> laid g' q e.
  Proof.
    intros T Hr0 H. induction H as [p r H|p r f b H Hf|i p x c pc Hi D Hc| |q q' e H IH Ha].
    - destruct (same_pkg_at g g' p r T Hr0 H) as (r' & H' & _). econstructor. exact H'.
    - destruct (same_pkg_at g g' p r T Hr0 H) as (r' & H' & E). rewrite (Hsrc r r' E) in Hf. eapply laid_file; eauto.
    - destruct D as (sp & t & D). destruct (proj1 (proj2 (proj2 T) p x sp t pc)) as (i' & c' & Hi' & D' & Hc'); [exists i, c; auto|].
      apply (laid_link hex8 contents g' i' p x c' pc Hi'); [exists sp, t; exact D'|exact Hc'].
    - constructor.
    - eapply laid_above; eauto.
  Qed.
  Lemma same_all_laid g g' f : same_tree g g' -> (forall i x, child_of g i x <> Some 0) -> (forall i x, child_of g' i x <> Some 0) -> all_laid hex8 contents g f -> all_laid hex8 contents g' f.
  Proof.
    intros T H0 H0' H q e Hq. rewrite (H q e Hq). split; apply same_laid; auto. now apply same_tree_sym.
  Qed.
  Lemma same_missing g g' f f1 : same_tree g g' -> (forall i x c, depends g i x c -> exists pc, installed_at g c pc) -> links_missing hex8 g f f1 -> links_missing hex8 g' f f1.
  Proof.
    intros T A H q. destruct (H q) as [E|(E & p & i & x & c & t & Hi & D & Eq & El)]; [now left|right]. split; [exact E|]. destruct (A i x c D) as [pc Hc]. destruct D as (sp & ty & D).
    destruct (proj1 (proj2 (proj2 T) p x sp ty pc)) as (i' & c' & Hi' & D' & Hc'); [exists i, c; auto|]. exists p, i', x, c', t. split; [exact Hi'|]. split; [exists sp, ty; exact D'|auto].
  Qed.
End SameLayout.

Section Once.
  Variable rsat : range -> version -> bool.
  Variable canon : string -> option string.
  Variable hex8 : string -> string.
  Hypothesis Hhex : hex_ok hex8.
  Variable here : path.
  Variable contents : resolution -> list (path * string).
  Hypothesis Hcont : plain_contents contents.
  Notation isteps := (isteps hex8 here contents).
  Notation all_laid := (all_laid hex8 contents).
  Notation links_missing := (links_missing hex8).
  Notation tree := (tree rsat canon).

  (** what a first apply leaves is what C59 starts from *)
  Theorem C59_isolated_first : forall LOCK g f m (lock : LOCK) w, tree g -> no_collision hex8 (paths g) -> f ["node_modules"] = None \/ f ["node_modules"] = Some EDir ->
    m = None \/ f ["node_modules"; ".oro-store"] = None -> isteps f m g lock w -> w_phase _ w = Done -> all_laid g (w_fs _ w) /\ w_meta _ w = Some lock.
  Proof.
    intros LOCK g f m lock w T C Nm Hm S D. pose proof (tree_wf _ _ _ T) as W. assert (Ap : apart hex8 g g) by (intros p1 p2 x1 A1 A2; apply C; tauto).
    destruct (wipe_run hex8 Hhex here contents Hcont rsat canon anything g W Ap LOCK lock m f w) as [M E]; auto.
    { unfold iwipes. destruct m; [|auto]. destruct Hm as [Hm|Hm]; [discriminate|]. fold store_name in Hm. now rewrite Hm. }
    split; [|exact M]. intros q e Hq. rewrite (E q e Hq). now apply (wanted_laid hex8 contents rsat canon anything).
  Qed.
  (** one tree, applied again: whatever the moment, nothing but links is missing; killed and started again any number of times, the
      same; and when an apply ends, nothing is missing *)
  Theorem C59_isolated_tree : forall LOCK g f f1 (a lock : LOCK) w, tree g -> no_collision hex8 (paths g) -> all_laid g f -> links_missing g f f1 ->
    isteps f1 (Some a) g lock w ->
    links_missing g f (w_fs _ w) /\ (w_phase _ w = Done -> (forall q, w_fs _ w q = f q) /\ w_meta _ w = Some lock).
  Proof.
    intros LOCK g f f1 a lock w T C Hf Hm S. pose proof (tree_wf _ _ _ T) as W. assert (Ap : apart hex8 g g) by (intros p1 p2 x1 A1 A2; apply C; tauto).
    assert (Hf' : forall q e, in_nm q -> (f q = Some e <-> Fs.wanted (iinsts hex8 contents g) q e)).
    { intros q e Hq. rewrite (wanted_laid hex8 contents rsat canon anything g q e W). now apply Hf. }
    pose proof (proj1 (near_lk hex8 contents rsat canon anything g W f Hf' f1) Hm) as H1. split.
    - apply (near_lk hex8 contents rsat canon anything g W f Hf' (w_fs _ w)). exact (proj1 (J_run hex8 Hhex here contents Hcont rsat canon anything g W Ap LOCK a lock f Hf' f1 H1 _ w S eq_refl)).
    - intros D. exact (Done_same hex8 Hhex here contents Hcont rsat canon anything g W Ap LOCK a lock f Hf' f1 H1 w S D).
  Qed.
  (** but links do go: when pruning ends and extracting begins, none of the links to unscoped dependencies is there *)
  Theorem C59_isolated_gap : (exists t, here = "/" :: t) -> forall LOCK g f (a lock : LOCK) w, tree g -> no_collision hex8 (paths g) -> all_laid g f ->
    isteps f (Some a) g lock w -> w_phase _ w = Extracting (map FsPad.pad (iinsts hex8 contents g)) [] ->
    forall p i x c, installed_at g i p -> depends g i x c -> no_slash x = true ->
    (exists t, f (deps_dir hex8 p ++ comps x) = Some (ELink t)) /\ w_fs _ w (deps_dir hex8 p ++ comps x) = None.
  Proof.
    intros Hh LOCK g f a lock w T C Hf S Ph p i x c Hi D Hx. pose proof (tree_wf _ _ _ T) as W. pose proof W as ((q0 & P0 & I) & Hg & Hn).
    destruct (depends_lt rsat canon anything g q0 P0 I _ _ _ D) as (Hil & Hc & _).
    assert (Hcc : installed_at g c (node_path g c)) by (apply (at_path rsat canon anything); auto; lia).
    set (e := ELink (diff_paths (home hex8 (node_path g c)) (removelast (deps_dir hex8 p ++ comps x)))).
    assert (Lq : laid hex8 contents g (deps_dir hex8 p ++ comps x) e) by (eapply laid_link; eauto).
    assert (Lw : Fs.wanted (iinsts hex8 contents g) (deps_dir hex8 p ++ comps x) e) by now apply (wanted_laid hex8 contents rsat canon anything).
    assert (Ef : f (deps_dir hex8 p ++ comps x) = Some e).
    { apply Hf; [|exact Lq]. destruct (wanted_nm hex8 contents rsat canon anything g _ _ W Lw) as [z Z]. exists z. exact Z. }
    split; [eexists; exact Ef|].
    assert (Cq : condemned (idoomed hex8 here f (Some a) g) (deps_dir hex8 p ++ comps x)).
    { destruct (iwipes f (Some a)) eqn:Wp.
      - apply (all_condemned_i hex8 here LOCK (Some a) f g _ Wp); [exact (wanted_nm hex8 contents rsat canon anything g _ _ W Lw)|].
        rewrite (look_dir hex8 rsat canon anything g W i p x Hi). pose proof (comps_good_ne _ (dep_name_good rsat canon anything g q0 P0 I Hg _ _ _ D)) as Nc.
        unfold IsolatedProofs.link_path. destruct (Nat.eqb i 0); [|discriminate]. rewrite disk_cons. cbn. rewrite app_nil_r. destruct (comps x); [congruence|discriminate].
      - exists (deps_dir hex8 p ++ comps x). split; [|exists []; now rewrite app_nil_r]. unfold idoomed. rewrite Wp. apply orb_true_iff. left. unfold stale. apply existsb_exists.
        destruct (proj1 (depends_edge rsat canon anything g q0 P0 I i x c) D) as (En & ed & He & Ef1 & Ef2). exists ed. split; [exact He|]. rewrite Ef1, Ef2.
        rewrite (pkg_name_of g Hn c Hc), En. rewrite (look_dir hex8 rsat canon anything g W i p x Hi).
        assert (Q : link_path hex8 g i x = nm_dir hex8 g i ++ comps x).
        { unfold link_path. destruct (Nat.eqb_spec i 0) as [->|Hne]; [symmetry; apply (nm_dir_root hex8 g)|symmetry; apply (nm_dir_loc hex8 g Hn i x); lia]. }
        rewrite !andb_true_iff. split; [split|].
        + unfold pathb. rewrite Q. destruct path_eq_dec; [reflexivity|congruence].
        + now rewrite (comps_plain x Hx).
        + rewrite <- (look_dir hex8 rsat canon anything g W i p x Hi), Ef. unfold e. unfold pathb. destruct path_eq_dec as [E|E]; [|reflexivity]. exfalso.
          apply (text_relative hex8 Hhex here Hh rsat canon anything g i x c W D (pkg_dir hex8 g c)). rewrite <- E. unfold link_text.
          rewrite (home_loc hex8 rsat canon anything g c W Hc). now rewrite (look_dir hex8 rsat canon anything g W i p x Hi). }
    assert (K : forall w, isteps f (Some a) g lock w -> forall next live, w_phase _ w = Extracting next live ->
       List.length next <= List.length (map FsPad.pad (iinsts hex8 contents g)) /\ (List.length next = List.length (map FsPad.pad (iinsts hex8 contents g)) -> live = [] /\ w_fs _ w (deps_dir hex8 p ++ comps x) = None)).
    { clear -Cq. intros w S. unfold IsolatedModel.isteps in S. induction S as [|w1 w2 S IH H]; [intros next live E; discriminate E|]. intros next live E.
      destruct H as [f2 m p2 Hc' Hp Hl|f2 m Hw'|f2 m Hc' Hm|f2 m i2 nx lv|f2 m nx l1 l2 p2 e2 rest Hok|f2 m nx l1 l2 p2 b rest b' Hok|f2 m m' lv Hl|f2 m lv Hl]; cbn [w_fs w_phase] in *; try discriminate E; injection E as <- <-.
      - split; [apply Nat.le_refl|]. intros _. split; [reflexivity|]. now apply Hc'.
      - destruct (IH _ _ eq_refl) as [L _]. cbn [List.length] in L. split; [lia|]. intros E. lia.
      - destruct (IH _ _ eq_refl) as [L B]. split; [exact L|]. intros E. destruct (B E) as [B1 _]. destruct l1; discriminate.
      - destruct (IH _ _ eq_refl) as [L B]. split; [exact L|]. intros E. destruct (B E) as [B1 _]. destruct l1; discriminate.
      - exact (IH _ _ eq_refl). }
    exact (proj2 (proj2 (K w S _ _ Ph) eq_refl)).
  Qed.

End Once.

Section World.
  Variable rsat : range -> version -> bool.
  Variable canon : string -> option string.
  Variable parse_dep : string -> string -> res err pspec.
  Variable requested : pspec -> string.
  Variable gitshow : gitinfo -> string.
  Variable vshow : version -> string.
  Variable vparse : string -> option version.
  Variable iparse : string -> option string.
  Variable parse_spec : string -> res err pspec.
  Variable parse_url : string -> option string.
  Variable lookup : string -> res err package.
  Variable spec_show : pspec -> string.
  Variable hex8 : string -> string.
  Hypothesis Hhex : hex_ok hex8.
  Variable here : path.
  Variable contents : resolution -> list (path * string).
  Hypothesis Hcont : plain_contents contents.
  Notation to_package := (to_package vshow parse_spec parse_url lookup spec_show).
  Notation reach := (reach rsat canon parse_dep lnode entry_path lnode_manifest to_package).
  Notation steps := (steps rsat canon parse_dep lnode entry_path lnode_manifest to_package).
  Notation exec := (exec rsat canon parse_dep lnode entry_path lnode_manifest to_package).
  Notation to_lockfile := (to_lockfile requested gitshow).
  Notation isteps := (isteps hex8 here contents).
  Notation all_laid := (all_laid hex8 contents).
  Notation links_missing := (links_missing hex8).
  Notation tree := (tree rsat canon).

  (** C59 for registry trees whose dependencies are pinned, isolated linker. [s] is the resolution of the first apply, [f] what it left
      in node_modules (C59_isolated_first). The second apply reads the lockfile and the metadata; whatever the registry says by now, in
      whatever order: it never waits for the registry and never fails; the tree it finds is the same; at every moment, killed and
      started again or not, everything but links to dependencies is as it was; when it ends, everything is, the links too; it has
      recorded the same metadata and writes the same lockfile text.
      Missing: links are deleted and made again (C59_isolated_refuted); trees that are not pinned (C06_refuted); packages that are not
      from the registry; bins (C58). *)
  Theorem C59_isolated_partial : forall deliver0 lock0 root pkg m name rname dir, new_node parse_dep name pkg m true = Ok root ->
    (forall r r', source r = source r' -> contents r = contents r') ->
    forall s, reach deliver0 lock0 root s -> finished s = true ->
    registry_tree vshow vparse iparse parse_spec parse_url (s_g s) -> good_graph (s_g s) -> pk_resolved pkg = RDir rname dir ->
    (forall i x sp t, declares (s_g s) i x sp t -> parse_dep x (requested sp) = Ok sp) ->
    pinned rsat canon (s_g s) -> no_collision hex8 (paths (s_g s)) ->
    exists lf lf', to_lockfile (s_g s) = Ok lf /\ from_kdl vparse iparse (to_kdl vshow lf) = Ok lf'
    /\ forall deliver n s', steps deliver (Some (lock_view lf')) root n s' ->
         waiting s' = [] /\ (forall a r, exec (Some (lock_view lf')) s' a = Some r -> exists s'', r = Ok s'')
         /\ (finished s' = true ->
             same_tree (s_g s') (s_g s)
             /\ (forall f f1 w, all_laid (s_g s) f -> links_missing (s_g s) f f1 ->
                   isteps f1 (Some (lf_packages lf')) (s_g s') (lf_packages lf') w ->
                   links_missing (s_g s) f (w_fs _ w)
                   /\ (w_phase _ w = Done -> (forall q, w_fs _ w q = f q) /\ w_meta _ w = Some (lf_packages lf')))
             /\ exists lf2, to_lockfile (s_g s') = Ok lf2 /\ to_kdl vshow lf2 = to_kdl vshow lf).
  Proof.
    intros deliver0 lock0 root pkg m name rname dir Hroot Hsrc s Hs Hfin Hreg Hg Hr0 Hparse Hpin Hcol.
    destruct (replay_registry rsat canon parse_dep requested gitshow vshow vparse iparse parse_spec parse_url lookup spec_show
      _ _ _ _ _ _ _ _ Hroot s Hs Hfin Hreg Hr0 Hparse Hpin) as (lf & lf' & E1 & E2 & KP & HP & R).
    exists lf, lf'. split; [exact E1|]. split; [exact E2|]. intros deliver n s' St. destruct (R deliver n s' St) as (A & _ & B & Nm & C).
    split; [exact A|]. split; [exact B|]. intros Hf'. pose proof (C Hf') as T. split; [exact T|].
    assert (Hs' : reach deliver (Some (lock_view lf')) root s') by (eapply steps_reach; eauto).
    pose proof (reach_inv _ _ _ _ _ _ _ _ _ _ _ _ _ _ Hroot Hs) as [I _ _ _ _].
    pose proof (reach_inv _ _ _ _ _ _ _ _ _ _ _ _ _ _ Hroot Hs') as [I' _ _ _ _].
    pose proof (root_no_child rsat canon deliver0 _ _ _ I) as Z. pose proof (root_no_child rsat canon deliver _ _ _ I') as Z'.
    assert (Hval : forall i, 0 < i < size (s_g s) -> valid_name (name_of (s_g s) i)).
    { intros i Hi. destruct (proj1 (getn_lt (s_g s) i) ltac:(lia)) as [nd Hn]. destruct (Hreg i nd Hn ltac:(lia)) as (? & ? & ? & ? & _ & H & _). exact H. }
    split.
    - intros f f1 w Hf Hm S.
      assert (Hg' : good_graph (s_g s')).
      { apply (same_good (s_g s)); auto; [now apply same_tree_sym| | |].
        - intros i Hi. exists (node_path (s_g s') i). eapply installed_all; eauto.
        - intros i x Hc. unfold child_of in Hc. destruct (getn (s_g s') i) as [nd|] eqn:En; [|congruence]. apply getn_lt; eauto.
        - intros i x c Hc. apply (gi_child _ _ _ _ _ _ I' _ _ _ Hc). }
      assert (Tr : tree (s_g s')).
      { split; [|split; [exact Hg'|]].
        - exists parse_dep, lnode, entry_path, lnode_manifest, to_package, deliver, (Some (lock_view lf')), root, pkg, m, name, s'. split; [exact Hroot|]. split; [exact Hs'|]. split; [exact Hf'|reflexivity].
        - intros i nd Hi Hne. rewrite (Nm i nd Hi Hne). unfold name_of. now rewrite Hi. }
      assert (Cl : no_collision hex8 (paths (s_g s'))).
      { assert (P : forall p, paths (s_g s') p -> paths (s_g s) p).
        { intros p (j & Hj0 & Hj). destruct (at_same rsat canon parse_dep lnode entry_path lnode_manifest to_package root pkg m name Hroot deliver _ s' s Hs' T j p Hj) as [i Hi].
          exists i. split; [|exact Hi]. intros ->. apply Hj0. apply (installed_zero _ Z' j p Hj). now apply (installed_zero _ Z 0 p Hi). }
        intros x y z Hx Hy E. exact (Hcol x y z (P _ Hx) (P _ Hy) E). }
      pose proof (same_tree_sym _ _ T) as T'.
      assert (Dp : forall g q P dl, GInv rsat canon dl g q P -> forall i x c, depends g i x c -> exists pc, installed_at g c pc).
      { intros g q P dl Ig i x c D. destruct (depends_lt rsat canon dl g q P Ig _ _ _ D) as (_ & Hc & _). exists (node_path g c). eapply installed_all; [exact Ig|lia]. }
      destruct (C59_isolated_tree rsat canon hex8 Hhex here contents Hcont (list (string * lnode)) (s_g s') f f1 (lf_packages lf') (lf_packages lf') w Tr Cl) as [U V]; auto.
      + exact (same_all_laid hex8 contents Hsrc _ _ f T' Z Z' Hf).
      + apply (same_missing hex8 (s_g s) (s_g s') f f1 T'); [|exact Hm]. eapply Dp; eauto.
      + split; [|exact V]. apply (same_missing hex8 (s_g s') (s_g s) f (w_fs _ w) T); [|exact U]. eapply Dp; eauto.
    - destruct (same_tree_text rsat canon parse_dep lnode entry_path lnode_manifest to_package requested gitshow vshow root root pkg pkg m m name name Hroot Hroot
        deliver0 deliver lock0 _ s s' Hs Hs' (same_tree_sym _ _ T) Hval) as (l1 & l2 & F1 & F2 & F3).
      exists l2. split; [exact F2|]. rewrite E1 in F1. injection F1 as <-. auto.
  Qed.
End World.

(** ** it applies: two copies of x (PropsReplay's example) *)
Lemma tree6 : ex_tree (s_g end6).
Proof.
  pose proof end6_reach as R. unfold reach6 in R. destruct C06_nonvacuous as (Hf & _). split; [|split; [exact good6|apply iname_ok_spec; vm_compute; reflexivity]].
  do 11 eexists. exists end6. split; [exact root5_new|]. split; [exact R|]. split; [exact Hf|reflexivity].
Qed.
Lemma no_collision6 : no_collision ex_hex (paths (s_g end6)).
Proof. eapply (distinct_ok (all_paths (s_g end6))); [vm_compute; reflexivity|]. intros p. apply (ex_paths _ _ tree6). Qed.
Definition first6 : world (list (string * lnode)) := ifresh (s_g end6).
Lemma first6_laid : all_laid ex_hex ex_contents (s_g end6) (w_fs _ first6).
Proof.
  destruct (ifresh_run (s_g end6) ltac:(vm_compute; reflexivity)) as (S & D & _).
  refine (proj1 (C59_isolated_first ex_rsat ex_canon ex_hex ex_hex_ok ex_root ex_contents ex_plain _ (s_g end6) empty_fs None (ex_lock (s_g end6)) first6 tree6 no_collision6 (or_introl eq_refl) (or_introl eq_refl) S D)).
Qed.
Example C59_isolated_nonvacuous : exists f, all_laid ex_hex ex_contents (s_g end6) f
  /\ f (home ex_hex ["b"; "x"] ++ ["package.json"]) = Some (EFile (ex_text (RNpm "x" (v 2 0) "" None))) /\ (exists t, f (deps_dir ex_hex ["b"] ++ ["x"]) = Some (ELink t))
  /\ forall w, isteps ex_hex ex_root ex_contents f (Some (lf_packages (back6 (s_g end6)))) (s_g again6) (lf_packages (back6 (s_g end6))) w -> w_phase _ w = Done -> forall q, w_fs _ w q = f q.
Proof.
  pose proof end6_reach as R. unfold reach6, to_pkg6 in R. cbn [option_map] in R.
  destruct C06_nonvacuous as (Hf & Hreg & Hp & Hpin).
  exists (w_fs _ first6). split; [exact first6_laid|]. split; [vm_compute; reflexivity|]. split; [vm_compute; eexists; reflexivity|].
  destruct (C59_isolated_partial ex_rsat ex_canon ex_parse requested6 git6 vshow6 vparse6 Some parse_spec6 Some (fun _ => Err EFetch) requested6 ex_hex ex_hex_ok ex_root ex_contents ex_plain
    _ _ root5 root_pkg _ "root" "root" "/root" root5_new ex_source end6 R Hf Hreg good6 eq_refl Hp Hpin no_collision6) as (lf & lf' & E1 & E2 & H).
  assert (El : back6 (s_g end6) = lf') by (unfold back6; now rewrite E1, E2).
  assert (Hr : exists n, steps ex_rsat ex_canon ex_parse lnode entry_path lnode_manifest to_pkg6 (deliver6 reg5) (Some (lock_view (back6 (s_g end6)))) root5 n again6).
  { apply reach_steps. apply run6_reach with (lk := Some (back6 (s_g end6))) (l := [APop; APop; APop; APop; APop]); [repeat constructor | vm_compute; reflexivity]. }
  destruct Hr as [n Hr]. rewrite El in *. destruct (H _ n again6 Hr) as (_ & _ & G). destruct (G (proj1 again6_done)) as (_ & G1 & _).
  intros w Hw Hd. apply (G1 (w_fs _ first6) (w_fs _ first6) w first6_laid (fun q => or_introl eq_refl) Hw). exact Hd.
Qed.
(** The full C59 is false for the isolated linker: applied again, a project with the single dependency foo is for a moment without the
    link node_modules/foo; killed at that moment, it stays without. *)
Definition unlinked_foo : world (list (string * lnode)) := getw (ex_iorun (w_fs _ (ifresh t_foo1)) (Some (ex_lock t_foo1)) t_foo1 (isupp t_foo1) [ORemove foo_link; OPruned]).
Theorem C59_isolated_refuted : exists g f (lock : list (string * lnode)) w t,
  ex_tree g /\ no_collision ex_hex (paths g) /\ all_laid ex_hex ex_contents g f /\ isteps ex_hex ex_root ex_contents f (Some lock) g lock w
  /\ f ["node_modules"; "foo"] = Some (ELink t) /\ w_fs _ w ["node_modules"; "foo"] = None.
Proof.
  destruct (ifresh_run t_foo1 ltac:(vm_compute; reflexivity)) as (S & D & Sp).
  assert (C : no_collision ex_hex (paths t_foo1)) by (eapply (distinct_ok (all_paths t_foo1)); [vm_compute; reflexivity|]; intros p; apply (ex_paths _ _ tree_foo1)).
  exists t_foo1, (w_fs _ (ifresh t_foo1)), (ex_lock t_foo1), unlinked_foo. eexists. split; [exact tree_foo1|]. split; [exact C|]. split.
  { refine (proj1 (C59_isolated_first ex_rsat ex_canon ex_hex ex_hex_ok ex_root ex_contents ex_plain _ t_foo1 empty_fs None (ex_lock t_foo1) (ifresh t_foo1) tree_foo1 C (or_introl eq_refl) (or_introl eq_refl) S D)). }
  split; [eapply ex_iorun_sound; [exact Sp|]; apply isSome_getw; vm_compute; reflexivity|]. split; vm_compute; reflexivity.
Qed.

Print Assumptions C59_isolated_first.
Print Assumptions C59_isolated_tree.
Print Assumptions C59_isolated_gap.
Print Assumptions C59_isolated_partial.
Print Assumptions C59_isolated_refuted.
