(** * Property C59: applying an unchanged project again changes nothing.
    Vocabulary: [reach], [steps], [finished], [waiting] (ResolverRun): resolutions; [same_tree] (LockfileReplay): the same packages
    at the same paths with the same dependencies and links; [holds contents g f] (HoistedAgain): node_modules has everything tree
    [g] needs and nothing else, except .bin and files inside package directories; [hsteps f m g lock w] (HoistedModel): an apply of
    [g] begun on file system [f] with recorded metadata [m] can be in state [w] (so: also what a crash at that moment leaves);
    [to_lockfile], [to_kdl], [from_kdl]: the lockfile of a tree, its text, and reading it. The same text is written to
    package-lock.kdl and to node_modules/.orogene-meta.kdl. *)
From Verif Require Import Base Types Kdl ResolverModel ResolverProofs ResolverRun ResolverSpec ResolverThms ResolverSteps ResolverTerm ResolverFacts ResolverExamples
  LockfileModel LockfileSpec LockfileProofs LockfileGraph LockfileFacts LockfileReplay LockfileReplayRun LockfileView LockfileText PropsReplay
  PathLookup Fs FsRun HoistedModel HoistedSpec HoistedProofs HoistedThms HoistedAgain HoistedExamples PropsHoisted IsolatedProofs.
From Coq Require Import Permutation.
Open Scope string_scope.
Open Scope list_scope.

(** ** the same tree needs the same files *)
Section SameFiles.
  Variable contents : resolution -> list (path * string).
  Hypothesis Hsrc : forall r r', source r = source r' -> contents r = contents r'.
  Lemma same_pkg_at g g' names r : same_tree g g' -> (forall i x, child_of g' i x <> Some 0) -> pkg_at g names r ->
    exists r', pkg_at g' names r' /\ source r = source r'.
  Proof.
    intros Hsame Hr0 (i & n & Hi & Hne & Hn & Hr). destruct (proj1 (proj1 Hsame names r)) as (p & (j & n' & Hj & Hn' & Hp) & E).
    { exists (n_pkg n). split; [exists i, n; auto|]. now rewrite Hr. }
    exists (pk_resolved p). split; [|auto]. exists j, n'. split; [exact Hj|]. split; [|split; [exact Hn'|congruence]].
    intros ->. apply Hne. apply (installed_zero g' Hr0 0 names) in Hj. pose proof (proj1 Hj eq_refl) as ->. apply (installed_inj _ _ _ Hi). constructor.
  Qed.
  Lemma same_entries g g' q e : same_tree g g' -> (forall i x, child_of g' i x <> Some 0) -> tree_entry contents g q e -> tree_entry contents g' q e.
  Proof.
    intros Hsame Hr0 He. destruct He as [|names r q' Hat Hne Hp|names r f b Hat Hb|names r f b f' Hat Hb Hp Hne]; [constructor|..];
      destruct (same_pkg_at g g' names r Hsame Hr0 Hat) as (r' & Hat' & Es); try rewrite (Hsrc r r' Es) in Hb;
      [eapply te_dir|eapply te_file|eapply te_sub]; eauto.
  Qed.
  Lemma same_holds g g' f : same_tree g g' -> (forall i x, child_of g i x <> Some 0) -> (forall i x, child_of g' i x <> Some 0) -> holds contents g f -> holds contents g' f.
  Proof.
    intros Hsame Hr0 Hr0' [A B]. split.
    - intros q e He. apply A. eapply same_entries; [apply same_tree_sym; eassumption|exact Hr0|exact He].
    - intros q Hn Hq. destruct (B q Hn Hq) as [[e He]|[H|(names & r & more & Hat & ->)]]; [left; exists e; eapply same_entries; eauto|auto|].
      destruct (same_pkg_at g g' names r Hsame Hr0' Hat) as (r' & Hat' & _). right; right. exists names, r', more. auto.
  Qed.
  Lemma same_good g g' : same_tree g g' -> (forall i, i < size g' -> exists path, installed_at g' i path) ->
    (forall i n, child_of g' i n <> None -> i < size g') -> (forall i x c, child_of g' i x = Some c -> c < size g') ->
    good_graph g -> good_graph g'.
  Proof.
    intros Hsame Hall Hlt Hlt' Hg i x c Hc. destruct (Hall i) as [path Hi]; [eapply (Hlt i x); rewrite Hc; discriminate|].
    assert (Hat : installed_at g' c (path ++ [x])) by (econstructor; eauto).
    destruct (proj1 (getn_lt g' c) (Hlt' _ _ _ Hc)) as [n Hn].
    destruct (proj2 (proj1 Hsame (path ++ [x]) (pk_resolved (n_pkg n)))) as (p & (j & n' & Hj & _) & _).
    { exists (n_pkg n). split; [exists c, n; auto|reflexivity]. }
    inversion Hj as [E1 E2|p0 path0 y c0 H0 Hc0 E1 E2]; [destruct path; discriminate|]. apply app_inj_tail in E2. destruct E2 as [_ ->]. eauto.
  Qed.
End SameFiles.

Section World.
  Variable rsat : range -> version -> bool.
  Variable canon : string -> option string.
  Variable parse_dep : string -> string -> res err pspec.
  Variable requested : pspec -> string.
  Variable gitshow : gitinfo -> string.
  Variable vshow : version -> string.
  Variable vparse : string -> option version.
  Variable iparse : string -> option string.
  Variable parse_spec : string -> res err pspec.
  Variable parse_url : string -> option string.
  Variable lookup : string -> res err package.
  Variable spec_show : pspec -> string.
  Variable contents : resolution -> list (path * string).
  Notation to_package := (to_package vshow parse_spec parse_url lookup spec_show).
  Notation reach := (reach rsat canon parse_dep lnode entry_path lnode_manifest to_package).
  Notation steps := (steps rsat canon parse_dep lnode entry_path lnode_manifest to_package).
  Notation exec := (exec rsat canon parse_dep lnode entry_path lnode_manifest to_package).
  Notation to_lockfile := (to_lockfile requested gitshow).
  Notation hsteps := (hsteps requested gitshow contents).

  (** what the first apply leaves is what C59 starts from *)
  Theorem C59_first : forall deliver lock root pkg m name, new_node parse_dep name pkg m true = Ok root -> plain_contents contents ->
    forall s f m0 meta w, reach deliver lock root s -> good_graph (s_g s) ->
    (m0 = None \/ f ["node_modules"; ".oro-store"] <> None) -> (f ["node_modules"] = None \/ f ["node_modules"] = Some EDir) ->
    hsteps f m0 (s_g s) meta w -> w_phase _ w = Done ->
    holds contents (s_g s) (w_fs _ w) /\ w_fs _ w ["node_modules"; ".oro-store"] = None /\ w_meta _ w = Some meta.
  Proof.
    intros deliver lock root pkg m name Hroot Hpl s f m0 meta w Hs Hg Hm Hn S D.
    destruct (C15_fresh rsat canon parse_dep lnode entry_path lnode_manifest to_package deliver lock root pkg m name Hroot requested gitshow contents Hpl s f m0 meta w (conj Hs Hg) Hm Hn S D) as [Ex Em].
    split; [split|split; [|exact Em]].
    - intros q e He. apply Ex; [|exact He]. eapply rel_nm; eauto. split; eauto.
    - intros q Hq Hne. destruct (w_fs _ w q) as [e|] eqn:E; [|congruence]. left. exists e. apply Ex; auto.
    - destruct (w_fs _ w ["node_modules"; ".oro-store"]) as [e|] eqn:E; [exfalso|reflexivity]. apply Ex in E; [|exists [".oro-store"]; reflexivity].
      eapply store_not_entry; eauto.
  Qed.

  (** and an apply on top of it can be completed: nothing there is in the way *)
  Theorem C59_completes : forall deliver lock root pkg m name, new_node parse_dep name pkg m true = Ok root -> plain_contents contents ->
    forall s f m0 meta l, reach deliver lock root s -> good_graph (s_g s) -> holds contents (s_g s) f -> f ["node_modules"; ".oro-store"] = None ->
    (forall q, f q <> None -> In q l) -> exists w, hsteps f m0 (s_g s) meta w /\ w_phase _ w = Done.
  Proof.
    intros deliver lock root pkg m name Hroot Hpl s f m0 meta l Hs Hg [Hf _] Hst Hl.
    pose proof (reach_inv _ _ _ _ _ _ _ _ _ _ _ _ _ _ Hroot Hs) as [I _ _ _ _].
    apply (run_can_complete requested gitshow contents Hpl rsat canon deliver _ _ _ I Hg meta (fun q => (exists e, tree_entry contents (s_g s) q e) \/ q = ["node_modules"; store_name])) with (l := l); eauto.
    apply exact_trusted.
    - intros q e Hw. left. exists e. eapply wanted_spec; eauto.
    - intros q e [[e' He]| -> ]; rewrite (wanted_spec contents rsat canon deliver _ _ _ I Hg); split; intros H; auto.
      + assert (Some e = Some e') as E by (rewrite <- H; apply Hf; exact He). injection E as ->. exact He.
      + unfold store_name in *. rewrite Hst in H. discriminate.
  Qed.

  (** C59 for registry trees whose dependencies are pinned, hoisted linker. [s] is the resolution of the first apply, [f] what it left
      in node_modules (C59_first), perhaps with bins and files made by install scripts. The second apply reads the lockfile and the
      metadata; whatever the registry says by now, in whatever order: it never waits for the registry and never fails; the tree it
      finds is the same; at no moment of pruning and extracting has any file changed, so neither has a crash; when it ends it has
      recorded the same metadata and writes the same lockfile text.
      Missing: node_modules/.bin, which a second apply empties (C53_refuted); trees that are not pinned (C06_refuted); packages that
      are not from the registry; the isolated linker. *)
  Theorem C59_partial : forall deliver0 lock0 root pkg m name rname dir, new_node parse_dep name pkg m true = Ok root ->
    (forall r r', source r = source r' -> contents r = contents r') ->
    forall s, reach deliver0 lock0 root s -> finished s = true ->
    registry_tree vshow vparse iparse parse_spec parse_url (s_g s) -> good_graph (s_g s) -> pk_resolved pkg = RDir rname dir ->
    (forall i x sp t, declares (s_g s) i x sp t -> parse_dep x (requested sp) = Ok sp) ->
    pinned rsat canon (s_g s) ->
    exists lf lf', to_lockfile (s_g s) = Ok lf /\ from_kdl vparse iparse (to_kdl vshow lf) = Ok lf'
    /\ forall deliver n s', steps deliver (Some (lock_view lf')) root n s' ->
         waiting s' = [] /\ (forall a r, exec (Some (lock_view lf')) s' a = Some r -> exists s'', r = Ok s'')
         /\ (finished s' = true ->
             same_tree (s_g s') (s_g s)
             /\ (forall f w, holds contents (s_g s) f -> f ["node_modules"; ".oro-store"] = None ->
                   hsteps f (Some (lf_packages lf')) (s_g s') (lf_packages lf') w ->
                   (forall q, w_fs _ w q = f q) /\ (w_phase _ w = Done -> w_meta _ w = Some (lf_packages lf')))
             /\ exists lf2, to_lockfile (s_g s') = Ok lf2 /\ to_kdl vshow lf2 = to_kdl vshow lf).
  Proof.
    intros deliver0 lock0 root pkg m name rname dir Hroot Hsrc s Hs Hfin Hreg Hg Hr0 Hparse Hpin.
    destruct (replay_registry rsat canon parse_dep requested gitshow vshow vparse iparse parse_spec parse_url lookup spec_show
      _ _ _ _ _ _ _ _ Hroot s Hs Hfin Hreg Hr0 Hparse Hpin) as (lf & lf' & E1 & E2 & KP & HP & R).
    exists lf, lf'. split; [exact E1|]. split; [exact E2|]. intros deliver n s' St. destruct (R deliver n s' St) as (A & _ & B & Nm & C).
    split; [exact A|]. split; [exact B|]. intros Hf'. pose proof (C Hf') as T. split; [exact T|].
    assert (Hs' : reach deliver (Some (lock_view lf')) root s') by (eapply steps_reach; eauto).
    pose proof (reach_inv _ _ _ _ _ _ _ _ _ _ _ _ _ _ Hroot Hs) as [I _ _ _ _].
    pose proof (reach_inv _ _ _ _ _ _ _ _ _ _ _ _ _ _ Hroot Hs') as [I' _ _ _ _].
    pose proof (root_no_child rsat canon deliver0 _ _ _ I) as Z. pose proof (root_no_child rsat canon deliver _ _ _ I') as Z'.
    assert (Hval : forall i, 0 < i < size (s_g s) -> valid_name (name_of (s_g s) i)).
    { intros i Hi. destruct (proj1 (getn_lt (s_g s) i) ltac:(lia)) as [nd Hn]. destruct (Hreg i nd Hn ltac:(lia)) as (? & ? & ? & ? & _ & H & _). exact H. }
    split.
    - intros f w Hf Hst S.
      assert (Hg' : good_graph (s_g s')).
      { apply (same_good (s_g s)); auto; [now apply same_tree_sym| | |].
        - intros i Hi. exists (node_path (s_g s') i). eapply installed_all; eauto.
        - intros i x Hc. unfold child_of in Hc. destruct (getn (s_g s') i) as [nd|] eqn:En; [|congruence]. apply getn_lt; eauto.
        - intros i x c Hc. apply (gi_child _ _ _ _ _ _ I' _ _ _ Hc). }
      destruct (untouched requested gitshow contents rsat canon deliver (s_g s') _ _ I' Hg' f (lf_packages lf') (lf_packages lf')
        (same_holds contents Hsrc _ _ f (same_tree_sym _ _ T) Z Z' Hf) Hst) with (w := w) as (U & _ & V); [|exact S|exact (conj U V)].
      intros x j Hx Hj. destruct (installed_path _ _ _ _ _ _ I' _ _ Hj) as [Hlt' Ep'].
      assert (Hj0 : j <> 0) by (intros ->; apply (installed_zero _ Z') in Hj; pose proof (proj1 Hj eq_refl); discriminate).
      destruct (at_same rsat canon parse_dep lnode entry_path lnode_manifest to_package root pkg m name Hroot deliver _ s' s Hs' T j [x] Hj) as [i Hi].
      destruct (installed_path _ _ _ _ _ _ I _ _ Hi) as [Hlt Ep].
      assert (Hi0 : i <> 0) by (intros ->; apply (installed_zero _ Z) in Hi; pose proof (proj1 Hi eq_refl); discriminate).
      set (old := entry requested gitshow (s_g s) i). set (new := entry requested gitshow (s_g s') j).
      destruct (entry_eq requested gitshow (s_g s) i Hlt) as [Eo1 Eo2]. fold old in Eo1, Eo2.
      destruct (entry_eq requested gitshow (s_g s') j Hlt') as [En1 En2]. fold new in En1, En2.
      exists (norm old), j, new. split; [|split; [exact Hj|split; [exact En1|]]].
      + destruct KP as [Hnd _]. rewrite aget_ueqb. apply In_aget; [apply seqb_spec|rewrite map_map; exact Hnd|].
        change (ufold x, norm old) with ((fun e : string * lnode => (ufold (fst e), snd e)) (x, norm old)). apply in_map.
        apply (Permutation_in _ (Permutation_sym HP)). apply in_map_iff. exists i. rewrite <- Ep. split; [reflexivity|]. apply rest_in. lia.
      + pose proof (reach_nodup _ _ _ _ _ _ _ _ _ _ _ _ _ _ Hroot Hs) as Hdn. pose proof (reach_nodup _ _ _ _ _ _ _ _ _ _ _ _ _ _ Hroot Hs') as Hdn'.
        pose proof (node_lnode_deps_ok requested gitshow _ _ _ _ Hdn Eo1) as (O1 & O2 & O3 & O4).
        pose proof (node_lnode_deps_ok requested gitshow _ _ _ _ Hdn' En1) as Hok'.
        pose proof (entry_describes rsat canon parse_dep lnode entry_path lnode_manifest to_package deliver0 lock0 requested gitshow root pkg m name Hroot s Hs _ _ _ Hlt Eo1) as D.
        pose proof (entry_describes rsat canon parse_dep lnode entry_path lnode_manifest to_package deliver _ requested gitshow root pkg m name Hroot s' Hs' _ _ _ Hlt' En1) as D'.
        destruct (described_same rsat canon parse_dep lnode entry_path lnode_manifest to_package requested gitshow root root pkg pkg m m name name Hroot Hroot
          deliver0 deliver lock0 _ s s' Hs Hs' (same_tree_sym _ _ T) i j [x] old new Hi Hj D D') as (P1 & P2 & P3 & P4 & P5).
        assert (Hnr : l_is_root old = false). { unfold node_lnode in Eo1. destruct (getn (s_g s) i); [|discriminate]. injection Eo1 as Eo1. rewrite <- Eo1. reflexivity. }
        assert (Hnr' : l_is_root new = false). { unfold node_lnode in En1. destruct (getn (s_g s') j); [|discriminate]. injection En1 as En1. rewrite <- En1. reflexivity. }
        apply lnode_eqb_spec; [|exact Hok'|].
        * unfold norm. repeat split; cbn [l_deps l_dev l_peer l_opt]; now apply sort_deps_NoDup.
        * destruct D' as (nd' & Hnd' & _ & Hname & Hres & _).
          assert (Hx' : pk_name (n_pkg nd') = x).
          { rewrite (Nm j nd' Hnd' Hj0). pose proof (ginv_parlt _ _ _ _ _ _ I') as Hp'. destruct (gi_par _ _ _ _ _ _ I' j ltac:(lia)) as (p & Hpp & _).
            rewrite (node_path_step (s_g s') Hp' j p) in Ep' by auto. change [x] with ([] ++ [x]) in Ep'. apply app_inj_tail in Ep'. destruct Ep' as [_ Ep']. auto. }
          assert (Hri : l_resolved old <> None).
          { unfold node_lnode in Eo1. destruct (getn (s_g s) i); [|discriminate]. injection Eo1 as Eo1. rewrite <- Eo1. discriminate. }
          assert (Mt : forall t a b, NoDup (map fst a) -> same_map a b -> t = sort_deps a -> same_map t b).
          { intros t a b Na Hab -> k. rewrite (same_map_sort a Na k). apply Hab. }
          unfold same_node, norm. cbn [l_name l_is_root l_path l_resolved l_version l_integrity l_deps l_dev l_peer l_opt]. rewrite Hnr, Hnr', Hname, Hx', Eo2, <- Ep. cbn [rev app].
          split; [reflexivity|]. split; [reflexivity|]. split; [rewrite <- P1, Eo2, <- Ep; reflexivity|]. split; [exact P3|]. split; [exact P2|].
          split; [destruct (l_resolved old); [exact P4|congruence]|].
          split; [|split; [|split]]; [eapply Mt; [|exact (P5 Prod)|reflexivity]|eapply Mt; [|exact (P5 Dev)|reflexivity]|eapply Mt; [|exact (P5 Peer)|reflexivity]|eapply Mt; [|exact (P5 Opt)|reflexivity]]; assumption.
    - destruct (same_tree_text rsat canon parse_dep lnode entry_path lnode_manifest to_package requested gitshow vshow root root pkg pkg m m name name Hroot Hroot
        deliver0 deliver lock0 _ s s' Hs Hs' (same_tree_sym _ _ T) Hval) as (l1 & l2 & F1 & F2 & F3).
      exists l2. split; [exact F2|]. rewrite E1 in F1. injection F1 as <-. auto.
  Qed.
End World.
Print Assumptions C59_first.
Print Assumptions C59_completes.
Print Assumptions C59_partial.

(** ** it applies: two copies of x (PropsReplay's example); files that name the version *)
Lemma ex_source : forall r r', source r = source r' -> ex_contents r = ex_contents r'.
Proof. intros [? ? ? ?|? ?|? ?] [? ? ? ?|? ?|? ?] E; cbn in E; try discriminate E; injection E; intros; subst; reflexivity. Qed.
Definition again6 : st := get (run6 (Some (back6 (s_g end6))) (init root5) [APop; APop; APop; APop; APop]) root5.
Example again6_done : finished again6 = true /\ tree_of (s_g again6) = tree_of (s_g end6) /\ List.length (tree_of (s_g again6)) = 5.
Proof. split; [vm_compute; reflexivity|]. split; vm_compute; reflexivity. Qed.
Lemma good6 : good_graph (s_g end6).
Proof. apply good_graphb_spec. vm_compute. reflexivity. Qed.
Example C59_nonvacuous : exists f, holds ex_contents (s_g end6) f /\ f ["node_modules"; ".oro-store"] = None
  /\ f ["node_modules"; "b"; "node_modules"; "x"; "package.json"] <> None
  /\ forall w, hsteps requested6 git6 ex_contents f (Some (lf_packages (back6 (s_g end6)))) (s_g again6) (lf_packages (back6 (s_g end6))) w -> forall q, w_fs _ w q = f q.
Proof.
  pose proof end6_reach as R. unfold reach6, to_pkg6 in R. cbn [option_map] in R.
  destruct C06_nonvacuous as (Hf & Hreg & Hp & Hpin).
  destruct (C15_completes ex_rsat ex_canon ex_parse lnode entry_path lnode_manifest _ _ _ root5 root_pkg _ "root" root5_new requested6 git6 ex_contents ex_plain end6 empty_fs None
    (lf_packages (back6 (s_g end6))) [] (conj R good6)) as (w1 & S1 & D1); [intros q Hq; destruct (Hq eq_refl)|now left|now left|].
  destruct (C59_first ex_rsat ex_canon ex_parse requested6 git6 vshow6 parse_spec6 Some (fun _ => Err EFetch) requested6 ex_contents
    _ _ root5 root_pkg _ "root" root5_new ex_plain end6 empty_fs None (lf_packages (back6 (s_g end6))) w1 R good6 (or_introl eq_refl) (or_introl eq_refl) S1 D1) as (Ho & Hst & _).
  exists (w_fs _ w1). split; [exact Ho|]. split; [exact Hst|]. split.
  { rewrite (proj1 Ho _ (EFile (ex_text (RNpm "x" (v 2 0) "" None)))); [discriminate|].
    change (tree_entry ex_contents (s_g end6) (disk ["b"; "x"] ++ ["package.json"]) (EFile (ex_text (RNpm "x" (v 2 0) "" None)))).
    apply te_file with (r := RNpm "x" (v 2 0) "https://r/x-2.0.0" (Some "sha512-x")); [|left; reflexivity].
    exists 4. eexists. split; [change ["b"; "x"] with (([] ++ ["b"]) ++ ["x"]); eapply at_child; [eapply at_child; [constructor|vm_compute; reflexivity]|vm_compute; reflexivity]|].
    split; [discriminate|]. split; [vm_compute; reflexivity|reflexivity]. }
  destruct (C59_partial ex_rsat ex_canon ex_parse requested6 git6 vshow6 vparse6 Some parse_spec6 Some (fun _ => Err EFetch) requested6 ex_contents
    _ _ root5 root_pkg _ "root" "root" "/root" root5_new ex_source end6 R Hf Hreg good6 eq_refl Hp Hpin) as (lf & lf' & E1 & E2 & H).
  assert (El : back6 (s_g end6) = lf') by (unfold back6; now rewrite E1, E2).
  assert (Hr : exists n, steps ex_rsat ex_canon ex_parse lnode entry_path lnode_manifest to_pkg6 (deliver6 reg5) (Some (lock_view (back6 (s_g end6)))) root5 n again6).
  { apply reach_steps. apply run6_reach with (lk := Some (back6 (s_g end6))) (l := [APop; APop; APop; APop; APop]); [repeat constructor | vm_compute; reflexivity]. }
  destruct Hr as [n Hr]. rewrite El in *. destruct (H _ n again6 Hr) as (_ & _ & G). destruct (G (proj1 again6_done)) as (_ & G1 & _).
  intros w Hw. exact (proj1 (G1 (w_fs _ w1) w Ho Hst Hw)).
Qed.
