(** * Property C63: Node.js finds each dependency on disk. For every finished resolution, every completed apply (hoisted or isolated)
    and every directory of an installed package a module may be required from: what Node's own lookup (NodeSpec) finds there, on
    the file system the linker left, is the package the tree says. [resolved], [tree], [history]: PropsHoisted, PropsIsolated. *)
From Verif Require Import Base Types ResolverModel ResolverProofs ResolverRun ResolverSpec ResolverThms ResolverSteps ResolverFacts
  ResolverCycles ResolverSeen LockfileModel LockfileGraph PathLookup Fs FsRun FsPlain HoistedModel HoistedSpec HoistedProofs HoistedThms ResolverExamples HoistedExamples
  IsolatedModel IsolatedSpec IsolatedProofs IsolatedThms PropsHoisted PropsSeen PropsIsolated NodeSpec NodeProofs.
Open Scope string_scope.
Open Scope list_scope.

Section Hoisted.
  Variable rsat : range -> version -> bool.
  Variable canon : string -> option string.
  Variable parse_dep : string -> string -> res err pspec.
  Variable lnodeT : Type.
  Variable lnode_path : lnodeT -> list string.
  Variable lnode_manifest : lnodeT -> manifest.
  Variable to_package : lnodeT -> res err (option package).
  Variable deliver : pspec -> outcome -> Prop.
  Variable lockf : option (lockpkgs lnodeT).
  Notation reach_calm := (reach_calm rsat canon parse_dep lnodeT lnode_path lnode_manifest to_package deliver lockf).
  Notation asked := (asked rsat canon parse_dep lnodeT lnode_manifest to_package deliver lockf).
  Notation answers := (answers rsat canon lnodeT lnode_manifest to_package deliver lockf).
  Variables (root : node) (pkg : package) (m0 : manifest) (name : string).
  Hypothesis Hroot : new_node parse_dep name pkg m0 true = Ok root.
  Notation theinv := (ResolverFacts.inv rsat canon parse_dep lnodeT lnode_path lnode_manifest to_package deliver lockf root pkg m0 name Hroot).
  Variable requested : pspec -> string.
  Variable gitshow : gitinfo -> string.
  Variable contents : resolution -> list (path * string).
  Hypothesis Hcont : plain_contents contents.
  Hypothesis Hnb : no_bundled contents.
  Notation hsteps := (hsteps requested gitshow contents).
  Notation resolved := (resolved rsat canon parse_dep lnodeT lnode_path lnode_manifest to_package deliver lockf root).

  (** [applied s f lock]: [f] is what a project looks like after an apply of the tree of [s] completed: started on any previous
      node_modules without trusted metadata (or of the other linker); or after any number of attempts that were killed; or again on what
      such an apply left; or on an exact install of another tree, with nothing changed that pruning does not look at (C15, C17). *)
  Inductive applied (s : st) : fs -> list (string * lnode) -> Prop :=
  | ap_first f m lock w : (m = None \/ f ["node_modules"; ".oro-store"] <> None) -> (f ["node_modules"] = None \/ f ["node_modules"] = Some EDir) ->
      hsteps f m (s_g s) lock w -> w_phase _ w = Done -> applied s (w_fs _ w) lock
  | ap_killed f lock f1 m1 w : (f ["node_modules"] = None \/ f ["node_modules"] = Some EDir) ->
      attempts requested gitshow contents (s_g s) lock f None f1 m1 -> hsteps f1 m1 (s_g s) lock w -> w_phase _ w = Done -> applied s (w_fs _ w) lock
  | ap_again f lock0 m lock w : applied s f lock0 -> hsteps f m (s_g s) lock w -> w_phase _ w = Done -> applied s (w_fs _ w) lock
  | ap_next g0 f a lock f1 m1 w : good_graph g0 -> (forall q e, prefix ["node_modules"] q -> (f q = Some e <-> tree_entry contents g0 q e)) ->
      no_hidden_change requested gitshow g0 (s_g s) a -> attempts requested gitshow contents (s_g s) lock f (Some a) f1 m1 ->
      hsteps f1 m1 (s_g s) lock w -> w_phase _ w = Done -> applied s (w_fs _ w) lock.
  Lemma applied_exact s f lock : resolved s -> applied s f lock -> forall q e, prefix ["node_modules"] q -> (f q = Some e <-> tree_entry contents (s_g s) q e).
  Proof.
    intros R H. induction H as [f m lock w Hm Hn S D|f lock f1 m1 w Hn At S D|f lock0 m lock w _ IH S D|g0 f a lock f1 m1 w G0 E0 Nh At S D].
    - exact (proj1 (C15_fresh rsat canon parse_dep lnodeT lnode_path lnode_manifest to_package deliver lockf root pkg m0 name Hroot requested gitshow contents Hcont s f m lock w R Hm Hn S D)).
    - exact (proj1 (C17_fresh rsat canon parse_dep lnodeT lnode_path lnode_manifest to_package deliver lockf root pkg m0 name Hroot requested gitshow contents Hcont s f lock f1 m1 w R Hn At S D)).
    - exact (proj1 (C15_again rsat canon parse_dep lnodeT lnode_path lnode_manifest to_package deliver lockf root pkg m0 name Hroot requested gitshow contents Hcont s f m lock w R IH S D)).
    - exact (proj1 (C17_partial rsat canon parse_dep lnodeT lnode_path lnode_manifest to_package deliver lockf root pkg m0 name Hroot requested gitshow contents Hcont g0 s f a lock f1 m1 w G0 R E0 Nh At S D)).
  Qed.
  Lemma uniq s : resolved s -> forall i p p', installed_at (s_g s) i p -> installed_at (s_g s) i p' -> p = p'.
  Proof.
    intros [R _] i p p' H H'. destruct (theinv s R) as [I]. destruct (installed_path _ _ _ _ _ _ I i p H) as [_ ->]. now destruct (installed_path _ _ _ _ _ _ I i p' H') as [_ ->].
  Qed.
  Lemma here s : resolved s -> forall c p, installed_at (s_g s) c p -> exists n, getn (s_g s) c = Some n.
  Proof. intros [R _] c p H. destruct (theinv s R) as [I]. destruct (installed_path _ _ _ _ _ _ I c p H) as [L _]. now apply getn_lt. Qed.

  (** C63, hoisted: from the directory [P] of a package (or a directory [sub] in it), Node finds [x] exactly where walking up the
      tree from that package finds one. *)
  Theorem C63_walkup : forall s f lock, resolved s -> applied s f lock -> forall i P sub x p, installed_at (s_g s) i P -> good_name x ->
    ~ In "node_modules" sub -> (P <> [] \/ sub = []) ->
    (finds f (disk P ++ sub) x p <-> exists c Q, visible (s_g s) i x c /\ installed_at (s_g s) c Q /\ p = disk Q).
  Proof.
    intros s f lock R A i P sub x p Hi Gx Ns Hs. pose proof R as [_ Hg].
    exact (finds_visible contents Hnb (s_g s) Hg f (applied_exact s f lock R A) (uniq s R) (here s R) i P sub x p Hi Gx Ns Hs).
  Qed.
  (** ... and what it finds there are that package's files *)
  Theorem C63_loads : forall s f lock, resolved s -> applied s f lock -> forall i P sub x c n, installed_at (s_g s) i P ->
    ~ In "node_modules" sub -> (P <> [] \/ sub = []) -> visible (s_g s) i x c -> getn (s_g s) c = Some n ->
    loads f (disk P ++ sub) x (contents (pk_resolved (n_pkg n))).
  Proof.
    intros s f lock R A i P sub x c n Hi Ns Hs V Hn. pose proof R as [_ Hg]. pose proof V as (pre & suf & _ & Hc & _).
    assert (Gx : good_name x) by (pose proof (at_names (s_g s) Hg c _ Hc) as G; apply Forall_app in G; destruct G as [_ G]; now inversion G).
    assert (Nq : pre ++ [x] <> []) by (destruct pre; discriminate).
    assert (Fi : forall fl e, (forall t, fl <> "node_modules" :: t) -> (f (disk (pre ++ [x]) ++ fl) = Some e <-> holds (contents (pk_resolved (n_pkg n))) fl e)).
    { intros fl e F. rewrite <- (package_files contents (s_g s) Hg (uniq s R) c n (pre ++ [x]) Hcont Hc Nq Hn fl e F). apply (applied_exact s f lock R A).
      destruct pre; eexists; reflexivity. }
    exists (disk (pre ++ [x])), (disk (pre ++ [x])). split; [|split; [left; split; [|reflexivity]|exact Fi]].
    - apply (C63_walkup s f lock R A i P sub x _ Hi Gx Ns Hs). exists c, (pre ++ [x]). auto.
    - rewrite <- (app_nil_r (disk (pre ++ [x]))). apply Fi; [discriminate|]. left. auto.
  Qed.
  (** So wherever C02 holds, every module of every package gets an acceptable package for each dependency declared. *)
  Theorem C63_calm_partial : forall s f lock, reach_calm root s -> finished s = true -> good_graph (s_g s) -> applied s f lock ->
    forall i P sub x sp t, installed_at (s_g s) i P -> ~ In "node_modules" sub -> (P <> [] \/ sub = []) -> declares (s_g s) i x sp t ->
    exists c n, acceptable rsat canon deliver (s_g s) c sp /\ getn (s_g s) c = Some n /\ loads f (disk P ++ sub) x (contents (pk_resolved (n_pkg n))).
  Proof.
    intros s f lock C F Hg A i P sub x sp t Hi Ns Hs D.
    assert (R : resolved s) by (split; [exact (reach_calm_reach _ _ _ _ _ _ _ _ _ _ _ C)|exact Hg]).
    destruct (ResolverFacts.calm_ok rsat canon parse_dep lnodeT lnode_path lnode_manifest to_package deliver lockf root pkg m0 name Hroot s C F i x sp t D) as (c & V & Ac).
    pose proof Ac as (n & Hn & _). exists c, n. split; [exact Ac|]. split; [exact Hn|]. exact (C63_loads s f lock R A i P sub x c n Hi Ns Hs V Hn).
  Qed.
  Theorem C63_name_partial : forall x,
    (forall sp sp' p m', asked root x sp -> asked root x sp' -> answers x sp p m' -> satisfies rsat canon (pk_resolved p) sp' = Ok true) ->
    forall s f lock, resolved s -> finished s = true -> applied s f lock ->
    forall i P sub sp t, installed_at (s_g s) i P -> ~ In "node_modules" sub -> (P <> [] \/ sub = []) -> declares (s_g s) i x sp t ->
    exists c n, acceptable rsat canon deliver (s_g s) c sp /\ getn (s_g s) c = Some n /\ loads f (disk P ++ sub) x (contents (pk_resolved (n_pkg n))).
  Proof.
    intros x Hx s f lock R F A i P sub sp t Hi Ns Hs D. pose proof R as [Rs Hg].
    destruct (C02_name_partial rsat canon parse_dep lnodeT lnode_path lnode_manifest to_package deliver lockf root pkg m0 name x Hroot Hx s Rs F i sp t D) as (c & V & Ac).
    pose proof Ac as (n & Hn & _). exists c, n. split; [exact Ac|]. split; [exact Hn|]. exact (C63_loads s f lock R A i P sub x c n Hi Ns Hs V Hn).
  Qed.
End Hoisted.

Section Isolated.
  Variable rsat : range -> version -> bool.
  Variable canon : string -> option string.
  Variable hex8 : string -> string.
  Hypothesis Hhex : hex_ok hex8.
  Variable root : path.
  Hypothesis Hroot : exists t, root = "/" :: t.
  Variable contents : resolution -> list (path * string).
  Hypothesis Hcont : plain_contents contents.
  Hypothesis Hnb : no_bundled contents.
  Variable LOCK : Type.
  Notation history := (history rsat canon hex8 root contents LOCK).
  Notation home := (home hex8).
  Notation tree := (tree rsat canon).
  (** where the files of the package at path [p] really are ([]: the project) *)
  Definition dir_of (p : list string) : path := match p with [] => [] | _ => home p end.

  (** C63, isolated, for every schedule of the resolution: from a package's real directory (or a directory in it) Node finds, for
      each dependency declared, the link next to it, and that leads to the files of the package it was resolved to. *)
  Theorem C63_isolated_partial : forall g f, history g f -> forall p i sub x s t, installed_at g i p -> good_name x -> declares g i x s t ->
    ~ In "node_modules" sub -> (p <> [] \/ sub = []) ->
    exists c n, depends g i x c /\ getn g c = Some n /\ loads f (dir_of p ++ sub) x (contents (pk_resolved (n_pkg n))).
  Proof.
    intros g f H p i sub x s t Hi Gx D Ns Hs.
    destruct (C20_links_partial rsat canon hex8 Hhex root Hroot contents Hcont LOCK g f H p i x s t Hi D) as (c & pc & Dc & Hc & L).
    assert (W : wf rsat canon anything g) by (destruct (history_ok rsat canon hex8 Hhex root Hroot contents Hcont LOCK g f H); assumption).
    destruct (path_node rsat canon anything g c pc W Hc) as [Lc _]. destruct (proj1 (getn_lt g c) Lc) as (n & Hn). exists c, n. split; [exact Dc|]. split; [exact Hn|].
    assert (Cz : c <> 0) by (pose proof W as ((q0 & P0 & I) & _); destruct (depends_lt rsat canon anything g q0 P0 I i x c Dc) as (_ & Z & _); lia).
    assert (Npc : pc <> []).
    { intros ->. apply Cz. exact (installed_inj _ _ _ Hc _ (at_root g)). }
    exists (dir_of p ++ "node_modules" :: comps x), (home pc).
    assert (E : dir_of p ++ "node_modules" :: comps x = deps_dir hex8 p ++ comps x).
    { destruct p; [reflexivity|]. unfold dir_of, deps_dir. rewrite <- app_assoc. reflexivity. }
    split; [|split; [right; now rewrite E|]].
    - assert (T : tree g) by (destruct H; assumption). destruct T as (_ & Hg & _).
      assert (Nd : ~ is_nm (dir_of p)).
      { destruct p as [|y p']; [intros ([|? ?] & X); discriminate|]. unfold dir_of, IsolatedSpec.home. intros (d' & X).
        pose proof (at_names g Hg i _ Hi) as Gp. rewrite Forall_forall in Gp. assert (Gl : good_name (last (y :: p') "")).
        { apply Gp. destruct (@exists_last _ (y :: p') ltac:(discriminate)) as (a & b & E'). rewrite E', last_last. apply in_or_app. right. now left. }
        destruct (comps_last _ Gl) as (pre & m & E' & Hm & _). cbv zeta in X. rewrite E' in X.
        assert (X' : forall A, ("node_modules" :: ".oro-store" :: A ++ "node_modules" :: pre ++ [m]) = ("node_modules" :: ".oro-store" :: A ++ "node_modules" :: pre) ++ [m]) by (intros A; cbn; rewrite <- app_assoc; reflexivity).
        rewrite X' in X. apply app_inj_tail in X. destruct X as [_ X]. exact (plain_nm m Hm X). }
      assert (Fd : f (candidate (dir_of p) x) <> None) by (unfold candidate; rewrite E; destruct L as (tx & Lx & _); congruence).
      clear L Dc. revert Ns. induction sub as [|cc sub IH] using rev_ind; intros Ns; [rewrite app_nil_r; now apply finds_here|].
      destruct Hs as [Np|Hs]; [|destruct sub; discriminate Hs]. rewrite app_assoc. apply finds_up.
      + right. destruct (f (candidate ((dir_of p ++ sub) ++ [cc]) x)) as [e|] eqn:Ef; [exfalso|reflexivity].
        assert (Li : exists n', getn g i = Some n') by (apply (proj1 (getn_lt g i)); apply (path_node rsat canon anything g i p W Hi)). destruct Li as (n' & Hn').
        unfold candidate in Ef. rewrite <- !app_assoc in Ef. cbn [app] in Ef. assert (Ed : dir_of p = home p) by (destruct p; [contradiction|reflexivity]). rewrite Ed in Ef.
        apply (C18_partial rsat canon hex8 Hhex root Hroot contents Hcont LOCK g f H p i n' Hi Np Hn' (sub ++ cc :: "node_modules" :: comps x) e) in Ef.
        * assert (Inm : In "node_modules" (sub ++ cc :: "node_modules" :: comps x)) by (apply in_or_app; right; right; now left).
          destruct Ef as [(_ & [Z|(f' & b & If & [z Hz] & _)])|(b & _ & If)]; [destruct sub; discriminate Z| |exact (Hnb _ _ _ If Inm)].
          apply (Hnb _ _ _ If). rewrite Hz. apply in_or_app. now left.
        * intros t0 Z. apply Ns. destruct sub as [|c0 sub]; injection Z as -> _; now left.
      + apply IH; [now left|]. intros I. apply Ns. apply in_or_app. now left.
    - intros fl e F. exact (C18_partial rsat canon hex8 Hhex root Hroot contents Hcont LOCK g f H pc c n Hc Npc Hn fl e F).
  Qed.
End Isolated.

(** ** concrete installs: package a requires x "latest" (its own copy, 1.1), the project requires x 1.0.0 *)
Lemma ex_no_bundled : no_bundled ex_contents.
Proof. intros r f b [H|[H|[]]]; injection H as <- <-; cbn [In]; intuition discriminate. Qed.
Lemma a_applied : applied ex_requested ex_gitshow ex_contents (end8 (v 1 1)) (w_fs _ (fresh g_a)) (ex_lock g_a).
Proof. apply (ap_first _ _ _ (end8 (v 1 1)) empty_fs None (ex_lock g_a) (fresh g_a)); [now left|now left|apply fresh_run; vm_compute; reflexivity|vm_compute; reflexivity]. Qed.
Example C63_install : loads (w_fs _ (fresh g_a)) ["node_modules"; "a"; "lib"] "x" [(["package.json"], "1.1"); (["lib"; "index.js"], "1.1")]
  /\ loads (w_fs _ (fresh g_a)) [] "x" [(["package.json"], "1.0"); (["lib"; "index.js"], "1.0")].
Proof.
  assert (I1 : installed_at g_a 1 ["a"]) by (apply (at_child _ 0 []); [constructor|vm_compute; reflexivity]).
  split.
  - assert (V : visible g_a 1 "x" 3).
    { exists ["a"], []. split; [exact I1|]. split; [apply (at_child _ 1 ["a"]); [exact I1|vm_compute; reflexivity]|]. intros pre' suf' c' E L. apply (f_equal (@List.length _)) in E. rewrite app_length in E. cbn in E, L. lia. }
    destruct (getn g_a 3) as [n|] eqn:En; [|vm_compute in En; discriminate En].
    pose proof (C63_loads _ _ _ _ _ _ _ _ _ _ _ _ _ root8_new ex_requested ex_gitshow ex_contents ex_plain ex_no_bundled (end8 (v 1 1)) _ _ resolved_a a_applied 1 ["a"] ["lib"] "x" 3 n I1) as L.
    assert (En' : pk_resolved (n_pkg n) = RNpm "x" (v 1 1) "x" None) by (vm_compute in En; injection En as <-; reflexivity). rewrite En' in L.
    apply L; [intros [X|[]]; discriminate X|left; discriminate|exact V|exact En].
  - assert (V : visible g_a 0 "x" 2).
    { exists [], []. split; [constructor|]. split; [apply (at_child _ 0 []); [constructor|vm_compute; reflexivity]|]. intros pre' suf' c' E L. apply (f_equal (@List.length _)) in E. rewrite app_length in E. cbn in E, L. lia. }
    destruct (getn g_a 2) as [n|] eqn:En; [|vm_compute in En; discriminate En].
    pose proof (C63_loads _ _ _ _ _ _ _ _ _ _ _ _ _ root8_new ex_requested ex_gitshow ex_contents ex_plain ex_no_bundled (end8 (v 1 1)) _ _ resolved_a a_applied 0 [] [] "x" 2 n (at_root _)) as L.
    assert (En' : pk_resolved (n_pkg n) = RNpm "x" (v 1 0) "x" None) by (vm_compute in En; injection En as <-; reflexivity). rewrite En' in L.
    apply L; [intros []|now right|exact V|exact En].
Qed.
(** the same tree, isolated *)
Example C63_isolated_install : exists c n, depends t_a 1 "x" c /\ getn t_a c = Some n
  /\ loads (w_fs _ (ifresh t_a)) (home ex_hex ["a"] ++ ["lib"]) "x" (ex_contents (pk_resolved (n_pkg n))) /\ pk_resolved (n_pkg n) = RNpm "x" (v 1 1) "x" None.
Proof.
  assert (I1 : installed_at t_a 1 ["a"]) by (apply (at_child _ 0 []); [constructor|vm_compute; reflexivity]).
  destruct (C63_isolated_partial ex_rsat ex_canon ex_hex ex_hex_ok ex_root (ex_intro _ _ eq_refl) ex_contents ex_plain ex_no_bundled (list (string * lnode)) t_a _ (proj1 C18_install) ["a"] 1 ["lib"] "x" (npm "x" (VTag "latest")) Prod I1) as (c & n & D & Hn & L).
  - apply good_nameb_spec. vm_compute. reflexivity.
  - eexists. split; vm_compute; reflexivity.
  - intros [X|[]]; discriminate X.
  - left. discriminate.
  - exists c, n. split; [exact D|]. split; [exact Hn|]. split; [exact L|].
    destruct (ex_edge _ _ _ _ tree_a D) as (_ & e & He & F & <-). vm_compute in He. destruct He as [<-|[<-|[<-|[]]]]; cbn [e_from e_to] in *; try discriminate F. vm_compute in Hn. injection Hn as <-. reflexivity.
Qed.

(** C63 is false in general: a finished resolution, installed from scratch, in which requiring "n" from a package that declares
    n 1.0.0 loads the files of n 2.0.0 (C02_refuted, on disk). *)
Lemma end2_resolved : ex_resolved reg2 root2 end2.
Proof. split; [exact end2_reach|apply good_graphb_spec; vm_compute; reflexivity]. Qed.
Theorem C63_refuted : exists reg root pkg m s f lock i P,
  new_node ex_parse "root" pkg m true = Ok root /\ ex_resolved reg root s /\ finished s = true /\ applied ex_requested ex_gitshow ex_contents s f lock
  /\ installed_at (s_g s) i P /\ P <> [] /\ declares (s_g s) i "n" (npm "n" (VVersion (v 1 0))) Prod
  /\ loads f (disk P) "n" [(["package.json"], "2.0"); (["lib"; "index.js"], "2.0")].
Proof.
  destruct (C15_completes _ _ _ _ _ _ _ _ _ _ _ _ _ root2_new ex_requested ex_gitshow ex_contents ex_plain end2 empty_fs None (ex_lock (s_g end2)) [] end2_resolved) as (w & S & D); [intros q Hq; destruct (Hq eq_refl)|now left|now left|].
  assert (A : applied ex_requested ex_gitshow ex_contents end2 (w_fs _ w) (ex_lock (s_g end2))) by (apply (ap_first _ _ _ end2 empty_fs None _ w); auto; now left).
  exists reg2, root2, root_pkg. eexists. exists end2, (w_fs _ w), (ex_lock (s_g end2)), 4, (node_path (s_g end2) 4).
  assert (I4 : installed_at (s_g end2) 4 (node_path (s_g end2) 4)).
  { destruct (ResolverFacts.inv _ _ _ _ _ _ _ _ _ _ _ _ _ root2_new end2 end2_reach) as [I]. eapply installed_all; [exact I|]. vm_compute. lia. }
  split; [exact root2_new|]. split; [exact end2_resolved|]. split; [vm_compute; reflexivity|]. split; [exact A|]. split; [exact I4|]. split; [vm_compute; discriminate|].
  split; [eexists; split; vm_compute; reflexivity|].
  destruct (getn (s_g end2) 5) as [n|] eqn:En; [|vm_compute in En; discriminate En].
  assert (En' : pk_resolved (n_pkg n) = RNpm "n" (v 2 0) "n" None) by (vm_compute in En; injection En as <-; reflexivity).
  assert (V : visible (s_g end2) 4 "n" 5) by (apply (ex_visible _ _ _ _ _ _ root2_new end2_reach); [vm_compute; lia | vm_compute; reflexivity]).
  pose proof (C63_loads _ _ _ _ _ _ _ _ _ _ _ _ _ root2_new ex_requested ex_gitshow ex_contents ex_plain ex_no_bundled end2 _ _ end2_resolved A 4 (node_path (s_g end2) 4) [] "n" 5 n I4) as L.
  rewrite En', app_nil_r in L. apply L; [intros []|now right|exact V|exact En].
Qed.

Print Assumptions C63_walkup.
Print Assumptions C63_loads.
Print Assumptions C63_calm_partial.
Print Assumptions C63_name_partial.
Print Assumptions C63_isolated_partial.
Print Assumptions C63_refuted.
