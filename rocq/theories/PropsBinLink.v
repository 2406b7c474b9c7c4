(** * Properties C52, C53: the executables of the installed packages (hoisted node_modules).
    [lsteps conc (link_start bins g l f c) w]: linking the bins of the packages [l] of tree [g], up to [conc] packages at a
    time, started on file system [f], can be in state [w]; [over w]: it has ended well; [fails w]: a system call fails there,
    and the apply returns an error. [leads f p q]: [p] is a symbolic link to [q]. [pkg_at g [x; y] r]: package [r] is at
    node_modules/x/node_modules/y; its directory is [disk [x; y]]. [binpaths r]: the bins of package [r], name and path.
    [pending .. g f1]: the packages whose directory was missing on [f1]. *)
From Verif Require Import Base Types ResolverModel ResolverProofs ResolverRun ResolverSpec ResolverThms ResolverSteps ResolverFacts
  LockfileModel LockfileGraph PathLookup Fs FsRun HoistedModel HoistedSpec HoistedProofs HoistedThms ResolverExamples HoistedExamples PropsHoisted
  StdPath BinModel BinProofs IsolatedModel IsolatedSpec IsolatedProofs BinLinkModel BinLinkProofs BinLinkSafe BinLinkHoisted.
From Coq Require Import Lia Permutation.
Open Scope string_scope.
Open Scope list_scope.

Section World.
  Variable rsat : range -> version -> bool.
  Variable canon : string -> option string.
  Variable parse_dep : string -> string -> res err pspec.
  Variable lnodeT : Type.
  Variable lnode_path : lnodeT -> list string.
  Variable lnode_manifest : lnodeT -> manifest.
  Variable to_package : lnodeT -> res err (option package).
  Variable deliver : pspec -> outcome -> Prop.
  Variable lockf : option (lockpkgs lnodeT).
  Variables (root : node) (pkg : package) (m0 : manifest) (name : string).
  Hypothesis Hroot : new_node parse_dep name pkg m0 true = Ok root.
  Notation theinv := (ResolverFacts.inv rsat canon parse_dep lnodeT lnode_path lnode_manifest to_package deliver lockf root pkg m0 name Hroot).
  Notation resolved := (resolved rsat canon parse_dep lnodeT lnode_path lnode_manifest to_package deliver lockf root).
  Variable requested : pspec -> string.
  Variable gitshow : gitinfo -> string.
  Variable contents : resolution -> list (path * string).
  Hypothesis Hcont : plain_contents contents.
  Notation hsteps := (hsteps requested gitshow contents).
  Variable binpaths : resolution -> list (string * path).
  Hypothesis Hbins : fine_bins binpaths.
  Variable scripted : resolution -> bool.
  Notation bins := (bins_of binpaths).
  Notation pending := (pending bins scripted).

  (** C53: whatever was there before, if linking ends well then every bin (that exists) of a package extracted by this apply
      has a link in the .bin directory beside the package, to it or to the bin of the same name of another such package there. *)
  Theorem C53_new : forall s f1 l conc f c w, resolved s -> Permutation l (pending (s_g s) f1) ->
    lsteps conc (link_start bins (s_g s) l f c) w -> over w ->
    forall pre x r n p, pkg_at (s_g s) (pre ++ [x]) r -> f1 (disk (pre ++ [x])) = None -> In (n, p) (binpaths r) -> f (disk (pre ++ [x]) ++ p) <> None ->
    exists x' r' p', pkg_at (s_g s) (pre ++ [x']) r' /\ f1 (disk (pre ++ [x'])) = None /\ In (n, p') (binpaths r') /\ f (disk (pre ++ [x']) ++ p') <> None
      /\ leads (l_fs w) (disk pre ++ ["node_modules"; ".bin"; n]) (disk (pre ++ [x']) ++ p').
  Proof. intros s f1 l conc f c w [R Hg] Hl. destruct (theinv s R) as [I]. eapply new_linked; eauto. Qed.

  (** after pruning without a trusted previous install, no package directory is left *)
  Lemma all_new s f m lock w1 : resolved s -> (m = None \/ f ["node_modules"; ".oro-store"] <> None) ->
    hsteps f m (s_g s) lock w1 -> w_phase _ w1 = Extracting (hinsts contents (s_g s)) [] ->
    forall names r, pkg_at (s_g s) names r -> w_fs _ w1 (disk names) = None.
  Proof.
    intros [R Hg] Hm S Hp names r At. destruct (theinv s R) as [I].
    assert (Hw : wipes f m = true) by (destruct m; [destruct Hm as [Hm|Hm]; [discriminate|]; cbn; fold store_name in Hm |- *; destruct (f _); congruence | reflexivity]).
    destruct (prune_result requested gitshow contents Hcont rsat canon deliver _ _ _ I Hg lock f m w1 S Hp) as [_ P]. apply P.
    destruct (@pkg_index rsat canon deliver _ _ _ I names r At) as (i & n & Hi & <- & _).
    destruct (disk_nil (node_path (s_g s) i)) as [_ N2]; [eapply node_names; eauto; lia | eapply node_ne; eauto; lia|].
    eapply all_condemned; eauto. destruct (node_path (s_g s) i) as [|y t] eqn:E; [exfalso; eapply (node_ne _ _ _ _ _ _ I i); eauto; lia|].
    rewrite disk_cons. eexists. reflexivity.
  Qed.
  (** C53, first install: after the apply, every bin of every package has a link. Missing: later applies (C53_refuted). *)
  Theorem C53_partial : forall s f m lock w1 w l conc c w2, resolved s ->
    (m = None \/ f ["node_modules"; ".oro-store"] <> None) -> (f ["node_modules"] = None \/ f ["node_modules"] = Some EDir) ->
    hsteps f m (s_g s) lock w1 -> w_phase _ w1 = Extracting (hinsts contents (s_g s)) [] ->
    hsteps f m (s_g s) lock w -> w_phase _ w = Done ->
    Permutation l (pending (s_g s) (w_fs _ w1)) -> lsteps conc (link_start bins (s_g s) l (w_fs _ w) c) w2 -> over w2 ->
    forall pre x r n p b, pkg_at (s_g s) (pre ++ [x]) r -> In (n, p) (binpaths r) -> In (p, b) (contents r) ->
    exists x' r' p' , pkg_at (s_g s) (pre ++ [x']) r' /\ In (n, p') (binpaths r')
      /\ leads (l_fs w2) (disk pre ++ ["node_modules"; ".bin"; n]) (disk (pre ++ [x']) ++ p').
  Proof.
    intros s f m lock w1 w l conc c w2 H Hm Hn S1 P1 S D Hl L O pre x r n p b At B Hb.
    destruct (C15_fresh rsat canon parse_dep lnodeT lnode_path lnode_manifest to_package deliver lockf root pkg m0 name Hroot requested gitshow contents Hcont s f m lock w H Hm Hn S D) as [Ex _].
    destruct (C53_new s (w_fs _ w1) l conc (w_fs _ w) c w2 H Hl L O pre x r n p At) as (x' & r' & p' & At' & _ & B' & _ & Le); auto.
    - eapply all_new; eauto.
    - assert (T : tree_entry contents (s_g s) (disk (pre ++ [x]) ++ p) (EFile b)) by (eapply te_file; eauto).
      apply Ex in T; [congruence|]. destruct (pre ++ [x]) as [|y t] eqn:E; [destruct pre; discriminate|]. rewrite disk_cons. eexists. reflexivity.
    - eauto 6.
  Qed.
  (** and it is its own link, if no other package beside it has a bin of that name *)
  Theorem C53_own_partial : forall s f m lock w1 w l conc c w2, resolved s ->
    (m = None \/ f ["node_modules"; ".oro-store"] <> None) -> (f ["node_modules"] = None \/ f ["node_modules"] = Some EDir) ->
    hsteps f m (s_g s) lock w1 -> w_phase _ w1 = Extracting (hinsts contents (s_g s)) [] ->
    hsteps f m (s_g s) lock w -> w_phase _ w = Done ->
    Permutation l (pending (s_g s) (w_fs _ w1)) -> lsteps conc (link_start bins (s_g s) l (w_fs _ w) c) w2 -> over w2 ->
    forall pre x r n p b, pkg_at (s_g s) (pre ++ [x]) r -> In (n, p) (binpaths r) -> In (p, b) (contents r) ->
    (forall x' r' p', pkg_at (s_g s) (pre ++ [x']) r' -> In (n, p') (binpaths r') -> x' = x /\ p' = p) ->
    leads (l_fs w2) (disk pre ++ ["node_modules"; ".bin"; n]) (disk (pre ++ [x]) ++ p).
  Proof.
    intros s f m lock w1 w l conc c w2 H Hm Hn S1 P1 S D Hl L O pre x r n p b At B Hb U.
    destruct (C53_partial s f m lock w1 w l conc c w2 H Hm Hn S1 P1 S D Hl L O pre x r n p b At B Hb) as (x' & r' & p' & At' & B' & Le).
    destruct (U x' r' p' At' B') as [-> ->]. exact Le.
  Qed.
  (** nothing outside the .bin directories changes, at any moment *)
  Theorem C53_outside : forall s f1 l conc f c w, resolved s -> Permutation l (pending (s_g s) f1) ->
    (forall q e, prefix ["node_modules"] q -> (f q = Some e <-> tree_entry contents (s_g s) q e)) ->
    lsteps conc (link_start bins (s_g s) l f c) w ->
    forall q, q <> [] -> (forall names, ~ prefix (disk names ++ ["node_modules"; ".bin"]) q) -> l_fs w q = f q.
  Proof. intros s f1 l conc f c w [R Hg] Hl Ht S. destruct (theinv s R) as [I]. eapply links_outside; eauto. Qed.

  (** C52: linking the bins of an exact tree never fails and always ends, if packages are linked one at a time, or if no two
      packages beside each other have bins to link. Missing: everything else (C52_refuted). *)
  Theorem C52_partial : forall s f1 l conc f, resolved s -> Permutation l (pending (s_g s) f1) ->
    (forall q e, prefix ["node_modules"] q -> (f q = Some e <-> tree_entry contents (s_g s) q e)) ->
    (conc = 1 \/ forall pre x x' r r', pkg_at (s_g s) (pre ++ [x]) r -> pkg_at (s_g s) (pre ++ [x']) r' ->
       f1 (disk (pre ++ [x])) = None -> f1 (disk (pre ++ [x'])) = None -> binpaths r <> [] -> binpaths r' <> [] -> x = x') ->
    forall w, lsteps conc (link_start bins (s_g s) l f first_cache) w -> ~ fails w /\ exists w', lsteps conc w w' /\ over w'.
  Proof. intros s f1 l conc f [R Hg] Hl Ht Hex. destruct (theinv s R) as [I]. eapply links_safe; eauto. Qed.
  (** every run is finite, whatever the packages and the schedule: at most [measure] steps *)
  Theorem C52_finite : forall conc w w', lstep conc w w' -> measure w' < measure w.
  Proof. exact measure_step. Qed.
End World.

(** ** concrete runs: move the k-th package at work, or start the next one *)
Inductive lop := LStart | LMove (k : nat).
Definition move (w : lw) (k : nat) : option lw :=
  match nth_error (l_live w) k with
  | None => None
  | Some (js, p) =>
      let l1 := firstn k (l_live w) in let l2 := skipn (S k) (l_live w) in
      match js with
      | [] => Some (mkL (l_fs w) (l_cache w) (l_wait w) (l1 ++ l2))
      | j :: js' => match tstep (l_fs w) (l_cache w) j p with
                    | Go f c p' => Some (mkL f c (l_wait w) (l1 ++ (j :: js', p') :: l2))
                    | Next f c => Some (mkL f c (l_wait w) (l1 ++ (js', AtFrom) :: l2))
                    | Fail => None
                    end
      end
  end.
Fixpoint lrun (w : lw) (ops : list lop) : option lw :=
  match ops with
  | [] => Some w
  | LStart :: t => match l_wait w with [] => None | js :: wt => if Nat.leb (List.length (l_live w)) 1 then lrun (mkL (l_fs w) (l_cache w) wt ((js, AtFrom) :: l_live w)) t else None end
  | LMove k :: t => match move w k with Some w' => lrun w' t | None => None end
  end.
Lemma nth_mid A (l : list A) k x : nth_error l k = Some x -> l = firstn k l ++ x :: skipn (S k) l.
Proof. revert k; induction l as [|a l IH]; intros [|k] E; cbn in *; try discriminate; [injection E as ->; auto | f_equal; auto]. Qed.
Lemma lrun_sound conc w0 ops : conc <> 1 -> forall w w', lsteps conc w0 w -> lrun w ops = Some w' -> lsteps conc w0 w'.
Proof.
  intros Hc. induction ops as [|[|k] ops IH]; intros w w' S E; cbn in E; [injection E as <-; auto| |].
  - destruct w as [f c wt live]. cbn in E. destruct wt as [|js wt]; [discriminate|]. destruct (Nat.leb_spec (List.length live) 1); [|discriminate].
    eapply IH; [|exact E]. eapply ls_step; [exact S|]. apply l_start. lia.
  - destruct (move w k) as [w1|] eqn:M; [|discriminate]. eapply IH; [|exact E]. eapply ls_step; [exact S|]. unfold move in M.
    destruct (nth_error (l_live w) k) as [[js p]|] eqn:Nk; [|discriminate]. pose proof (nth_mid _ _ _ _ Nk) as El.
    destruct w as [f c wt live]. cbn [l_fs l_cache l_wait l_live] in *. rewrite El at 1.
    destruct js as [|j js]; [injection M as <-; apply l_end|]. destruct (tstep f c j p) as [f' c' p'|f' c'|] eqn:T; [| |discriminate]; injection M as <-; [now apply l_go | now apply l_next].
Qed.

(** each example package has one bin, named like itself *)
Definition ex_binpaths (r : resolution) : list (string * path) := match r with RNpm n _ _ _ => [(n, ["lib"; "index.js"])] | _ => [] end.
Definition ex_bins := bins_of ex_binpaths.
Lemma ex_fine : fine_bins ex_binpaths.
Proof. intros [n' ? ? ?| |] n p H; cbn in H; [|easy|easy]. destruct H as [H|[]]. injection H as <- <-. repeat split; try discriminate. intros [H|[H|[]]]; discriminate. Qed.
Definition ex_scripted (r : resolution) : bool := false.
Notation fs_a := (w_fs _ (fresh g_a)).
Definition pruned_a : world (list (string * lnode)) := getw (ex_orun empty_fs None g_a [] [OPruned]).
Definition pend_a := pending ex_bins ex_scripted g_a (w_fs _ pruned_a).
(** packages a, x and a's own x: all three are linked, one after the other *)
Definition go_one (n : nat) : list lop := LStart :: repeat (LMove 0) n.
Definition getl (o : option lw) : lw := match o with Some w => w | None => mkL empty_fs [] [] [] end.
Definition lsome (o : option lw) : bool := match o with Some _ => true | None => false end.
Lemma lsome_getl o : lsome o = true -> o = Some (getl o).
Proof. destruct o; [reflexivity | discriminate]. Qed.
Notation start_a := (link_start ex_bins g_a pend_a fs_a first_cache).
Definition serial_a : list lop := go_one 9 ++ go_one 6 ++ go_one 9.
Definition linked_a : lw := getl (lrun start_a serial_a).
Lemma linked_a_run conc : conc <> 1 -> lsteps conc start_a linked_a.
Proof. intros Hc. eapply lrun_sound; [exact Hc | constructor | apply (lsome_getl (lrun start_a serial_a)); vm_compute; reflexivity]. Qed.
Example C53_install : over linked_a
  /\ leads (l_fs linked_a) ["node_modules"; ".bin"; "a"] ["node_modules"; "a"; "lib"; "index.js"]
  /\ leads (l_fs linked_a) ["node_modules"; ".bin"; "x"] ["node_modules"; "x"; "lib"; "index.js"]
  /\ leads (l_fs linked_a) ["node_modules"; "a"; "node_modules"; ".bin"; "x"] ["node_modules"; "a"; "node_modules"; "x"; "lib"; "index.js"].
Proof. split; [split; vm_compute; reflexivity|]. split; [|split]; (eexists; split; [vm_compute; reflexivity | vm_compute; reflexivity]). Qed.
Lemma pruned_a_run : ex_hsteps empty_fs None g_a pruned_a.
Proof. eapply ex_orun_sound; [|apply isSome_getw; vm_compute; reflexivity]. intros q Hq. destruct (Hq eq_refl). Qed.
(** the hypotheses of C53_partial hold of it *)
Example C53_install_x : exists x' r' p', pkg_at g_a (["a"] ++ [x']) r' /\ In ("x", p') (ex_binpaths r')
  /\ leads (l_fs linked_a) (disk ["a"] ++ ["node_modules"; ".bin"; "x"]) (disk (["a"] ++ [x']) ++ p').
Proof.
  refine (C53_partial _ _ _ _ _ _ _ _ _ _ _ _ _ root8_new ex_requested ex_gitshow ex_contents ex_plain ex_binpaths ex_fine ex_scripted
    (end8 (v 1 1)) empty_fs None (ex_lock g_a) pruned_a (fresh g_a) pend_a 50 first_cache linked_a resolved_a (or_introl eq_refl) (or_introl eq_refl)
    pruned_a_run ltac:(vm_compute; reflexivity) (fresh_run g_a ready8) ltac:(vm_compute; reflexivity) (Permutation_refl _) (linked_a_run 50 ltac:(discriminate))
    (proj1 C53_install) ["a"] "x" (RNpm "x" (v 1 1) "x" None) "x" ["lib"; "index.js"] "1.1" _ _ _); [|vm_compute; auto | vm_compute; auto].
  exists 3. eexists. split; [|split; [discriminate | split; [vm_compute; reflexivity | reflexivity]]].
  apply (at_child _ 1 ["a"]); [apply (at_child _ 0 []); [constructor | vm_compute; reflexivity] | vm_compute; reflexivity].
Qed.

(** C52 fails on a fresh install as soon as two packages are linked at the same time: both see that node_modules/.bin is
    not in the cache, both try to create it, and the second gets "file exists". *)
Definition failsb (w : lw) : bool := existsb (fun t => match fst t with j :: _ => match tstep (l_fs w) (l_cache w) j (snd t) with Fail => true | _ => false end | [] => false end) (l_live w).
Lemma failsb_sound w : failsb w = true -> fails w.
Proof.
  intros H. apply existsb_exists in H. destruct H as ([js p] & Hin & E). cbn in E. destruct js as [|j js]; [discriminate|]. apply in_split in Hin. destruct Hin as (l1 & l2 & El).
  exists l1, l2, j, js, p. split; auto. destruct (tstep _ _ _ _); congruence.
Qed.
Definition race : list lop := [LStart; LStart; LMove 0; LMove 0; LMove 0; LMove 1; LMove 1; LMove 1; LMove 0].
Definition raced : lw := getl (lrun start_a race).
Lemma raced_run conc : conc <> 1 -> lsteps conc start_a raced.
Proof. intros Hc. eapply lrun_sound; [exact Hc | constructor | apply (lsome_getl (lrun start_a race)); vm_compute; reflexivity]. Qed.
Lemma raced_fails : fails raced.
Proof. apply failsb_sound. vm_compute. reflexivity. Qed.
Theorem C52_refuted : exists reg root s f m lock w1 w l, ex_resolved reg root s /\ finished s = true
  (* a first install, pruned at w1, extracted at w *)
  /\ f = empty_fs /\ m = None
  /\ hsteps ex_requested ex_gitshow ex_contents f m (s_g s) lock w1 /\ w_phase _ w1 = Extracting (hinsts ex_contents (s_g s)) []
  /\ hsteps ex_requested ex_gitshow ex_contents f m (s_g s) lock w /\ w_phase _ w = Done
  /\ Permutation l (pending ex_bins ex_scripted (s_g s) (w_fs _ w1))
  (* any two packages at a time, or more *)
  /\ forall conc, conc <> 1 -> exists w2, lsteps conc (link_start ex_bins (s_g s) l (w_fs _ w) first_cache) w2 /\ fails w2.
Proof.
  exists (reg8 (v 1 1)), root8, (end8 (v 1 1)), empty_fs, None, (ex_lock g_a), pruned_a, (fresh g_a), pend_a. change (s_g (end8 (v 1 1))) with g_a.
  split; [exact resolved_a|]. split; [vm_compute; reflexivity|]. split; [reflexivity|]. split; [reflexivity|].
  split; [exact pruned_a_run|]. split; [vm_compute; reflexivity|]. split; [exact (fresh_run g_a ready8)|]. split; [vm_compute; reflexivity|]. split; [apply Permutation_refl|].
  intros conc Hc. exists raced. split; [exact (raced_run conc Hc) | exact raced_fails].
Qed.
(** C52_partial applies to the same install, one package at a time *)
Example C52_install : forall w, lsteps 1 start_a w -> ~ fails w /\ exists w', lsteps 1 w w' /\ over w'.
Proof.
  apply (C52_partial _ _ _ _ _ _ _ _ _ _ _ _ _ root8_new ex_contents ex_plain ex_binpaths ex_fine ex_scripted (end8 (v 1 1)) (w_fs _ pruned_a) pend_a 1 fs_a resolved_a (Permutation_refl _)).
  - exact (proj1 C15_install).
  - auto.
Qed.

(** C53 fails on the second apply of the same tree: node_modules/.bin is emptied, and only the bins of packages that were
    just extracted, none this time, are linked again. *)
Definition jobs_a : list job := alljobs ex_binpaths g_a pend_a.
Definition supp_l : list path := supp_h g_a ++ flat_map (fun j => ancestors (j_to j)) jobs_a.
Lemma linked_supp q : l_fs linked_a q <> None -> In q supp_l.
Proof.
  intros H. destruct (ResolverFacts.inv _ _ _ _ _ _ _ _ _ _ _ _ _ root8_new _ (proj1 resolved_a)) as [I].
  destruct (@links_supp ex_binpaths ex_fine ex_scripted _ _ _ g_a _ _ I (proj2 resolved_a) (w_fs _ pruned_a) pend_a (Permutation_refl _) 50 fs_a first_cache linked_a q
    (linked_a_run 50 ltac:(discriminate)) H) as [X|X]; apply in_or_app; [left | right; exact X]. exact (fresh_supp g_a ready8 q X).
Qed.
Definition again_ops : list op := [OPruned; OStart; OPut 0; OStart; OStart; OStart; ODone].
Definition again_pruned : world (list (string * lnode)) := getw (ex_orun (l_fs linked_a) (Some (ex_lock g_a)) g_a supp_l [OPruned]).
Definition again_done : world (list (string * lnode)) := getw (ex_orun (l_fs linked_a) (Some (ex_lock g_a)) g_a supp_l again_ops).
Lemma again_pruned_run : ex_hsteps (l_fs linked_a) (Some (ex_lock g_a)) g_a again_pruned.
Proof. eapply ex_orun_sound; [exact linked_supp|]. apply isSome_getw. vm_compute. reflexivity. Qed.
Lemma again_done_run : ex_hsteps (l_fs linked_a) (Some (ex_lock g_a)) g_a again_done.
Proof. eapply ex_orun_sound; [exact linked_supp|]. apply isSome_getw. vm_compute. reflexivity. Qed.
Theorem C53_refuted : exists reg root s lock w l conc w2 w1' w' l' w2',
  ex_resolved reg root s /\ finished s = true
  (* first install, then its bins *)
  /\ hsteps ex_requested ex_gitshow ex_contents empty_fs None (s_g s) lock w /\ w_phase _ w = Done
  /\ lsteps conc (link_start ex_bins (s_g s) l (w_fs _ w) first_cache) w2 /\ over w2
  /\ leads (l_fs w2) ["node_modules"; ".bin"; "x"] ["node_modules"; "x"; "lib"; "index.js"]
  (* the same again: extraction, bins *)
  /\ hsteps ex_requested ex_gitshow ex_contents (l_fs w2) (w_meta _ w) (s_g s) lock w1' /\ w_phase _ w1' = Extracting (hinsts ex_contents (s_g s)) []
  /\ hsteps ex_requested ex_gitshow ex_contents (l_fs w2) (w_meta _ w) (s_g s) lock w' /\ w_phase _ w' = Done
  /\ Permutation l' (pending ex_bins ex_scripted (s_g s) (w_fs _ w1'))
  /\ lsteps conc (link_start ex_bins (s_g s) l' (w_fs _ w') first_cache) w2' /\ over w2'
  (* the package and its executable are there, the link is gone *)
  /\ l_fs w2' ["node_modules"; "x"; "lib"; "index.js"] <> None /\ l_fs w2' ["node_modules"; ".bin"; "x"] = None.
Proof.
  exists (reg8 (v 1 1)), root8, (end8 (v 1 1)), (ex_lock g_a), (fresh g_a), pend_a, 50, linked_a, again_pruned, again_done, [],
    (link_start ex_bins g_a [] (w_fs _ again_done) first_cache). change (s_g (end8 (v 1 1))) with g_a.
  split; [exact resolved_a|]. split; [vm_compute; reflexivity|]. split; [exact (fresh_run g_a ready8)|]. split; [vm_compute; reflexivity|].
  split; [now apply linked_a_run|]. split; [exact (proj1 C53_install)|]. split; [exact (proj1 (proj2 (proj2 C53_install)))|].
  assert (w_meta _ (fresh g_a) = Some (ex_lock g_a)) as -> by (vm_compute; reflexivity).
  split; [exact again_pruned_run|]. split; [vm_compute; reflexivity|]. split; [exact again_done_run|]. split; [vm_compute; reflexivity|].
  split; [assert (pending ex_bins ex_scripted g_a (w_fs _ again_pruned) = []) as -> by (vm_compute; reflexivity); constructor|].
  split; [constructor|]. split; [split; reflexivity|]. split; vm_compute; [discriminate | reflexivity].
Qed.

Print Assumptions C53_new.
Print Assumptions C53_partial.
Print Assumptions C53_own_partial.
Print Assumptions C53_outside.
Print Assumptions C52_partial.
Print Assumptions C52_finite.
Print Assumptions C52_refuted.
Print Assumptions C53_refuted.
