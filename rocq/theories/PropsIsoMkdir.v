(** * Property C18, continued: an apply with the isolated linker ends, and when it does not.
    [rapply f m g lock w]: an apply of tree [g] with the isolated linker, with the cache of [mkdirp], started on file system [f]
    with previous metadata [m], can be in state [w]. [failed w]: in [w], some operation gets an error, which ends the apply. *)
From Verif Require Import Base Types ResolverModel ResolverProofs ResolverRun ResolverSpec ResolverThms ResolverSteps ResolverFacts
  LockfileModel LockfileGraph PathLookup Fs FsRun FsPlain FsPad HoistedModel HoistedSpec HoistedProofs HoistedThms ResolverExamples HoistedExamples IsolatedModel IsolatedSpec IsolatedProofs IsolatedThms
  PropsIsolated IsoMkdirModel IsoMkdirProofs IsoMkdirThms.
Open Scope string_scope.
Open Scope list_scope.

(** what any file system is: above an entry there are only directories *)
Definition file_tree (f : fs) : Prop := forall q a, f q <> None -> above a q -> f a = Some EDir.

Section World.
  Variable rsat : range -> version -> bool.
  Variable canon : string -> option string.
  Variable hex8 : string -> string.
  Hypothesis Hhex : hex_ok hex8.
  Variable root : path.
  Hypothesis Hroot : exists t, root = "/" :: t.
  Variable contents : resolution -> list (path * string).
  Hypothesis Hcont : plain_contents contents.
  Variable LOCK : Type.
  Notation rapply := (rapply hex8 root contents).
  Notation isteps := (isteps hex8 root contents).
  Notation rsteps f m g lock := (rsteps LOCK (idoomed hex8 root f m g) (iwipes f m) (map pad (iinsts hex8 contents g)) lock).
  Notation tree := (tree rsat canon).
  Notation apart := (apart hex8).
  Notation history := (history rsat canon hex8 root contents LOCK).

  Lemma wipes_if f (m : option LOCK) : m = None \/ f ["node_modules"; ".oro-store"] = None -> iwipes f m = true.
  Proof. intros H. unfold iwipes. destruct m; [|auto]. destruct H as [H|H]; [discriminate|]. fold store_name in H. now rewrite H. Qed.

  (** the states of such an apply are those C18-C20 speak of *)
  Theorem C18_runs : forall g f m (lock : LOCK) w, tree g -> rapply f m g lock w ->
    exists w', isteps f m g lock w' /\ w_fs _ w' = r_fs _ w /\ w_meta _ w' = r_meta _ w /\ (r_phase _ w = RDone -> w_phase _ w' = Done).
  Proof.
    intros g f m lock w T S. exists (proj _ w). split; [exact (refine hex8 root contents rsat canon anything g (tree_wf _ _ _ T) LOCK lock f m w S)|].
    split; [reflexivity|]. split; [reflexivity|]. intros E. unfold proj. cbn. now rewrite E.
  Qed.

  (** a first install, or one that starts from scratch, never fails ... *)
  Theorem C18_never_fails : forall g f (lock : LOCK) m, tree g -> no_collision hex8 (paths g) -> file_tree f ->
    f ["node_modules"] = None \/ f ["node_modules"] = Some EDir -> m = None \/ f ["node_modules"; ".oro-store"] = None ->
    forall w, rapply f m g lock w -> ~ failed _ w.
  Proof.
    intros g f lock m T C Ft Nm Hm. pose proof (tree_wf _ _ _ T) as W. pose proof (self_apart rsat canon hex8 g C) as Ap. apply wipes_if in Hm.
    apply (run_no_fail hex8 Hhex root contents Hcont rsat canon anything g W Ap LOCK lock f m (fun q => in_nm q)).
    - exact (p_wn hex8 contents rsat canon anything g W).
    - exact Ft.
    - intros f' Hp. apply (p_good hex8 contents rsat canon anything g W). now apply (good_wipe hex8 root contents rsat canon anything LOCK m f).
    - intros f' Hp _. eapply scope_wipe; eauto.
  Qed.
  (** ... and, on a finite file system, from any state it can be in it can go on to the end *)
  Theorem C18_completes : forall g f l (lock : LOCK) m, tree g -> no_collision hex8 (paths g) -> file_tree f -> (forall q, f q <> None -> In q l) ->
    f ["node_modules"] = None \/ f ["node_modules"] = Some EDir -> m = None \/ f ["node_modules"; ".oro-store"] = None ->
    forall w, rapply f m g lock w -> exists w', rsteps f m g lock w w' /\ r_phase _ w' = RDone.
  Proof.
    intros g f l lock m T C Ft Hl Nm Hm w S. pose proof (tree_wf _ _ _ T) as W. pose proof (self_apart rsat canon hex8 g C) as Ap. apply wipes_if in Hm.
    destruct (run_finishes hex8 Hhex root contents Hcont rsat canon anything g W Ap LOCK lock f m (fun q => in_nm q)) with (l := l) (w := w) as (w' & _ & H1 & H2); eauto.
    - exact (p_wn hex8 contents rsat canon anything g W).
    - intros f' Hp. apply (p_good hex8 contents rsat canon anything g W). now apply (good_wipe hex8 root contents rsat canon anything LOCK m f).
    - intros f' Hp _. eapply scope_wipe; eauto.
  Qed.

  Section Upgrade.
    Variables g0 g : graph.
    Variable f : fs.
    Variable a : LOCK.
    Variable lock : LOCK.
    Hypothesis H : history g0 f.
    Hypothesis T : tree g.
    Hypothesis C : no_collision hex8 (fun p => paths g0 p \/ paths g p).
    Hypothesis Cm : compatible g0 g.
    Hypothesis Nn : no_new_in_scope g0 g.
    Hypothesis Ft : file_tree f.
    Lemma up_parts : wf rsat canon anything g /\ apart g g /\ (exists rel : path -> Prop, (forall q e, Fs.wanted (map pad (iinsts hex8 contents g)) q e -> rel q)
      /\ (forall f', pruned (idoomed hex8 root f (Some a) g) f f' -> good_start (map pad (iinsts hex8 contents g)) rel f')
      /\ forall f', pruned (idoomed hex8 root f (Some a) g) f f' -> treelike f' -> scopes_free (others hex8 contents g) nmod f').
    Proof.
      destruct (history_ok rsat canon hex8 Hhex root Hroot contents Hcont LOCK g0 f H) as (W0 & A0 & S0). pose proof (tree_wf _ _ _ T) as W.
      assert (Ap : apart g g) by (intros p q x Hp Hq; apply C; tauto). split; [exact W|]. split; [exact Ap|].
      destruct (iwipes f (Some a)) eqn:Hw.
      - exists (fun q => in_nm q). split; [exact (p_wn hex8 contents rsat canon anything g W)|]. split.
        + intros f' Hp. apply (p_good hex8 contents rsat canon anything g W). apply (good_wipe hex8 root contents rsat canon anything LOCK (Some a) f); auto.
          right. apply (proj1 S0). now apply (wanted_top hex8 contents rsat canon anything g0).
        + intros f' Hp _. eapply scope_wipe; eauto.
      - exists (rel_of hex8 contents g). split; [|split].
        + intros q e Hq. apply (p_want hex8 contents rsat canon anything g W) in Hq. split; [now apply (wanted_nm hex8 contents rsat canon anything g q e W) | eauto].
        + intros f' Hp. apply (p_good hex8 contents rsat canon anything g W). eapply (good_up hex8 Hhex root Hroot contents Hcont rsat canon anything g0 g); eauto.
        + intros f' Hp _. eapply (scope_up hex8 Hhex root contents Hcont rsat canon anything g W Ap LOCK g0 f a); eauto.
    Qed.
    (** an upgrade that pruning can see does not fail either. Missing: a package that was there before gets a second dependency
        of a scope (C18_scope_refuted). *)
    Theorem C18_upgrade_never_fails_partial : forall w, rapply f (Some a) g lock w -> ~ failed _ w.
    Proof.
      destruct up_parts as (W & Ap & rel & H1 & H2 & H3). exact (run_no_fail hex8 Hhex root contents Hcont rsat canon anything g W Ap LOCK lock f (Some a) rel H1 Ft H2 H3).
    Qed.
    Theorem C18_upgrade_completes_partial : forall l w, (forall q, f q <> None -> In q l) -> rapply f (Some a) g lock w -> exists w', rsteps f (Some a) g lock w w' /\ r_phase _ w' = RDone.
    Proof.
      intros l w Hl S. destruct up_parts as (W & Ap & rel & H1 & H2 & H3).
      destruct (run_finishes hex8 Hhex root contents Hcont rsat canon anything g W Ap LOCK lock f (Some a) rel H1 Ft H2 H3 l w Hl S) as (w' & _ & H4 & H5). eauto.
    Qed.
  End Upgrade.

  (** the project gets a dependency in a scope whose directory is already there: [mkdirp] remembers node_modules but not the
      scope directory, and fails because it exists. Whatever the schedule, the apply does not end well. *)
  Theorem C18_scope_stuck : forall g f a (lock : LOCK) x sc z c, tree g -> no_collision hex8 (paths g) -> f ["node_modules"; ".oro-store"] <> None ->
    depends g 0 x c -> comps x = [sc; z] -> f ["node_modules"; sc] = Some EDir -> f ["node_modules"; sc; z] = None ->
    forall w, rapply f (Some a) g lock w -> r_phase _ w <> RDone.
  Proof.
    intros g f a lock x sc z c T C Hst Hd Hx Hdir Hno. pose proof (tree_wf _ _ _ T) as W. pose proof (self_apart rsat canon hex8 g C) as Ap.
    apply (stuck_scope hex8 Hhex root contents Hcont rsat canon anything g W Ap LOCK lock f a x sc z c); auto.
    unfold iwipes. fold store_name in Hst. destruct (f ["node_modules"; store_name]); congruence.
  Qed.
End World.

(** ** examples *)
Notation ex_rapply := (rapply ex_hex ex_root ex_contents).
Lemma empty_tree : file_tree empty_fs.
Proof. intros q a H. destruct (H eq_refl). Qed.
Lemma ex_collide g : ex_tree g -> distinct_hashes (all_paths g) = true -> no_collision ex_hex (paths g).
Proof. intros T D. eapply distinct_ok; [exact D|]. intros p. now apply ex_paths. Qed.
(** a first install with the real [mkdirp] *)
Lemma ex_first g : ex_tree g -> distinct_hashes (all_paths g) = true -> exists w, ex_rapply empty_fs None g (ex_lock g) w /\ r_phase _ w = RDone /\ ex_history g (r_fs _ w).
Proof.
  intros T D. pose proof (ex_collide g T D) as C.
  destruct (C18_completes ex_rsat ex_canon ex_hex ex_hex_ok ex_root ex_contents ex_plain _ g empty_fs [] (ex_lock g) None T C empty_tree) with (w := mkR (list (string * lnode)) empty_fs None RPruning []) as (w & S & E); auto.
  - intros q Hq. destruct (Hq eq_refl).
  - constructor.
  - exists w. split; [exact S|]. split; [exact E|]. destruct (C18_runs ex_rsat ex_canon ex_hex ex_root ex_contents _ g empty_fs None (ex_lock g) w T S) as (w' & S' & E1 & _ & E3). rewrite <- E1.
    eapply (h_first _ _ _ _ _ _ g empty_fs empty_fs None (ex_lock g) w'); auto. constructor.
Qed.
Definition reg_z : registry := [("@s/y", [(v 1 0, no_deps)]); ("@s/z", [(v 1 0, no_deps)])].
Definition both_man := man [("@s/y", "1.0.0"); ("@s/z", "1.0.0")].
Definition both : st := get (ex_run (init (mk_root both_man))
  [APop; AChunk 2 [rs reg_z (npm "@s/y" (VVersion (v 1 0))); rs reg_z (npm "@s/z" (VVersion (v 1 0)))]; APop; APop]) (mk_root both_man).
Definition g_both := s_g both.
Lemma tree_both : ex_tree g_both. Proof. unfold g_both, both. apply ex_tree_intro with (reg := reg_z); [reflexivity | repeat constructor | vm_compute; reflexivity ..]. Qed.

(** C18_never_fails and C18_completes apply to the first install of @s/y and @s/z together; C18_upgrade_* to foo, then foo and @s/y *)
Example C18_both : exists w, ex_rapply empty_fs None g_both (ex_lock g_both) w /\ r_phase _ w = RDone /\ ex_history g_both (r_fs _ w).
Proof. apply ex_first; [exact tree_both | vm_compute; reflexivity]. Qed.
Example C18_no_new : no_new_in_scope t_foo1 g_two.
Proof.
  intros p i0 i s y z c0 c H0 H Hd. destruct (ex_edge _ _ _ _ tree_foo1 Hd) as (Hn & e & He & <- & <-). vm_compute in He. destruct He as [<-|[]]. cbn [e_to] in Hn.
  change (name_of t_foo1 1) with "foo" in Hn. discriminate Hn.
Qed.

(** The full C18 is false: install @s/y, then add @s/z, and the second apply fails however it is scheduled. *)
Theorem C18_scope_refuted : exists g0 g (lock0 lock : list (string * lnode)) w0,
  tree ex_rsat ex_canon g0 /\ tree ex_rsat ex_canon g /\ no_collision ex_hex (fun p => paths g0 p \/ paths g p) /\ compatible g0 g
  /\ ex_rapply empty_fs None g0 lock0 w0 /\ r_phase _ w0 = RDone
  /\ forall w, ex_rapply (r_fs _ w0) (Some lock0) g lock w -> r_phase _ w <> RDone.
Proof.
  destruct (ex_first t_scoped tree_scoped ltac:(vm_compute; reflexivity)) as (w0 & S0 & E0 & H0).
  assert (CO : no_collision ex_hex (fun p => paths t_scoped p \/ paths g_both p)).
  { eapply (distinct_ok (all_paths t_scoped ++ all_paths g_both)); [vm_compute; reflexivity|].
    intros p [H|H]; apply in_app_iff; [left; now apply ex_paths; [exact tree_scoped|] | right; now apply ex_paths; [exact tree_both|]]. }
  exists t_scoped, g_both, (ex_lock t_scoped), (ex_lock g_both), w0. split; [exact tree_scoped|]. split; [exact tree_both|]. split; [exact CO|].
  split.
  { split.
    - intros p i0 n0 i n Hp H1 H Hn0 Hn. destruct (ex_installed _ _ _ tree_scoped H1) as [L0 E1]. destruct (ex_installed _ _ _ tree_both H) as [L E]. rewrite E1 in E.
      change (size t_scoped) with 2 in L0. change (size g_both) with 3 in L. destruct i0 as [|[|i0]]; [destruct Hp; rewrite E1; vm_compute; reflexivity| |clear - L0; lia].
      destruct i as [|[|[|i]]]; [vm_compute in E; discriminate E | | vm_compute in E; discriminate E | clear - L; lia]. vm_compute in Hn0, Hn. injection Hn0 as <-. injection Hn as <-. reflexivity.
    - intros p i0 i x c0 p0 H1 H Hd Hc. destruct (ex_installed _ _ _ tree_scoped H1) as [L0 E1]. destruct (ex_installed _ _ _ tree_both H) as [L E]. rewrite E1 in E.
      destruct (ex_edge _ _ _ _ tree_scoped Hd) as (<- & e & He & <- & <-). vm_compute in He. destruct He as [<-|[]]. cbn [e_from e_to] in *.
      change (size g_both) with 3 in L. destruct i as [|[|[|i]]]; [ | vm_compute in E; discriminate E | vm_compute in E; discriminate E | clear - L; lia].
      exists 1. split; [apply (ex_depends _ _ _ _ tree_both); [vm_compute; reflexivity|]; vm_compute; eexists; split; [left; reflexivity|auto]|].
      intros _. destruct (ex_installed _ _ _ tree_scoped Hc) as [_ ->]. apply (at_child _ 0 []); [constructor | vm_compute; reflexivity]. }
  split; [exact S0|]. split; [exact E0|].
  destruct (history_ok ex_rsat ex_canon ex_hex ex_hex_ok ex_root ltac:(eexists; reflexivity) ex_contents ex_plain _ t_scoped _ H0) as (W & Ap & St).
  assert (WL : forall q e, wanted (iinsts ex_hex ex_contents t_scoped) q e -> r_fs _ w0 q = Some e) by (apply (proj1 St)).
  assert (Z : exists i t, In i (iinsts ex_hex ex_contents t_scoped) /\ In t (items i) /\ fst t = ["node_modules"; "@s"; "y"]).
  { eexists _, _. split; [right; left; reflexivity|]. split; [vm_compute; left; reflexivity|vm_compute; reflexivity]. }
  destruct Z as (i & t & Hi & Ht & Ef).
  apply (C18_scope_stuck ex_rsat ex_canon ex_hex ex_hex_ok ex_root ex_contents ex_plain _ g_both (r_fs _ w0) (ex_lock t_scoped) (ex_lock g_both) "@s/z" "@s" "z" 2 tree_both).
  - apply ex_collide; [exact tree_both|vm_compute; reflexivity].
  - assert (X : exists i t, In i (iinsts ex_hex ex_contents t_scoped) /\ In t (items i) /\ above ["node_modules"; ".oro-store"] (fst t)).
    { eexists _, _. split; [right; right; left; reflexivity|]. split; [vm_compute; left; reflexivity|]. cbn [fst]. split; [eexists; reflexivity|]. split; discriminate. }
    destruct X as (i' & t' & Hi' & Ht' & Ha). rewrite (WL _ _ (want_above _ i' t' _ Hi' Ht' Ha)). discriminate.
  - apply (ex_depends _ _ _ _ tree_both); [vm_compute; reflexivity|]. vm_compute. eexists. split; [right; left; reflexivity|auto].
  - reflexivity.
  - apply WL. apply (want_above _ i t _ Hi Ht). rewrite Ef. split; [exists ["y"]; reflexivity|]. split; discriminate.
  - destruct (r_fs _ w0 ["node_modules"; "@s"; "z"]) as [e|] eqn:E; [|auto]. exfalso.
    destruct (C20_only_partial ex_rsat ex_canon ex_hex ex_hex_ok ex_root ltac:(eexists; reflexivity) ex_contents ex_plain _ t_scoped _ H0 [] 0 ["@s"; "z"] e) as [(x & c & Hd & Ex)|(s & y & c & Hd & Ex & _)]; auto.
    + constructor.
    + discriminate.
    + intros _ u. discriminate.
    + destruct (ex_edge _ _ _ _ tree_scoped Hd) as (Hn & e' & He & _ & <-). vm_compute in He. destruct He as [<-|[]]. cbn [e_to] in Hn. change (name_of t_scoped 1) with "@s/y" in Hn. subst x. vm_compute in Ex. discriminate Ex.
    + discriminate.
Qed.

Print Assumptions C18_runs.
Print Assumptions C18_never_fails.
Print Assumptions C18_completes.
Print Assumptions C18_upgrade_never_fails_partial.
Print Assumptions C18_upgrade_completes_partial.
Print Assumptions C18_scope_stuck.
Print Assumptions C18_scope_refuted.
