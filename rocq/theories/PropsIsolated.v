(** * Properties C18, C19, C20: the isolated linker, for all trees, upgrade histories, schedules and crash points.
    [isteps f m g lock w]: an apply of tree [g] with the isolated linker, started on file system [f] with previous metadata [m],
    can be in state [w]. [home p]: node_modules/.oro-store/x@<hash of p>/node_modules/x for the package at path p = [..; x].
    [deps_dir p]: the node_modules directory of that package ([]: of the project). *)
From Verif Require Import Base Types ResolverModel ResolverProofs ResolverRun ResolverSpec ResolverThms ResolverSteps ResolverFacts
  LockfileModel LockfileGraph PathLookup Fs FsRun FsPlain HoistedModel HoistedSpec HoistedProofs HoistedThms ResolverExamples HoistedExamples IsolatedModel IsolatedSpec IsolatedProofs IsolatedThms.
Open Scope string_scope.
Open Scope list_scope.

(** [g] is the result of a finished resolution, of any project against any registry and with any lockfile, and its packages
    have names npm accepts and are known by the names they were asked for *)
Definition tree (rsat : range -> version -> bool) (canon : string -> option string) (g : graph) : Prop :=
  (exists parse_dep lnodeT lnode_path lnode_manifest to_package deliver lockf root pkg m name s,
     new_node parse_dep name pkg m true = Ok root
     /\ reach rsat canon parse_dep lnodeT lnode_path lnode_manifest to_package deliver lockf root s /\ finished s = true /\ s_g s = g)
  /\ good_graph g /\ named g.

Definition anything : pspec -> outcome -> Prop := fun _ _ => True.
Lemma GInv_any rsat canon deliver g q P : GInv rsat canon deliver g q P -> GInv rsat canon anything g q P.
Proof.
  intros [A1 A2 A3 A4 A5 A6 A7 A8 A9 A10 A11 A12 A13]. constructor; auto.
  intros i x ei H. destruct (A6 i x ei H) as (e & H1 & H2 & H3 & H4 & H5 & (p & H6 & H7)). exists e. split; [auto|]. split; [auto|]. split; [auto|]. split; [auto|]. split; [auto|].
  exists p. split; [auto|]. destruct H7 as [H7|[m H7]]; [auto|]. right. exists m. exact Logic.I.
Qed.
Lemma tree_wf rsat canon g : tree rsat canon g -> wf rsat canon anything g.
Proof.
  intros [(parse_dep & lnodeT & lnode_path & lnode_manifest & to_package & deliver & lockf & root & pkg & m & name & s & Hn & R & _ & <-) H]. split; [|exact H].
  destruct (ResolverFacts.inv rsat canon parse_dep lnodeT lnode_path lnode_manifest to_package deliver lockf root pkg m name Hn s R) as [I].
  exists (s_q s), (waiting s). eapply GInv_any; eauto. 
Qed.
Lemma tree_declares rsat canon g i x s t : tree rsat canon g -> declares g i x s t -> exists c, depends g i x c.
Proof.
  intros [(parse_dep & lnodeT & lnode_path & lnode_manifest & to_package & deliver & lockf & root & pkg & m & name & st & Hn & R & F & <-) _] H.
  destruct (ResolverFacts.complete rsat canon parse_dep lnodeT lnode_path lnode_manifest to_package deliver lockf root pkg m name Hn st R F i x s t H) as (c & Hc & _). exists c, s, t. exact Hc.
Qed.

Section World.
  Variable rsat : range -> version -> bool.
  Variable canon : string -> option string.
  Variable hex8 : string -> string.
  Hypothesis Hhex : hex_ok hex8.
  Variable root : path.
  Hypothesis Hroot : exists t, root = "/" :: t.
  Variable contents : resolution -> list (path * string).
  Hypothesis Hcont : plain_contents contents.
  Variable LOCK : Type.
  Notation isteps := (isteps hex8 root contents).
  Notation home := (home hex8).
  Notation deps_dir := (deps_dir hex8).
  Notation tree := (tree rsat canon).
  Notation apart := (apart hex8).
  Notation iattempts g lock := (iattempts hex8 root contents g LOCK lock).

  (** [history g f]: [f] is what a project looks like after some applies, the last of them of [g]. The first starts on
      anything that has no metadata (or no store), and may have been killed and restarted any number of times; in between only
      upgrades that pruning can see. *)
  Inductive history : graph -> fs -> Prop :=
  | h_first g f f1 m1 (lock : LOCK) w : tree g -> no_collision hex8 (paths g) -> f ["node_modules"] = None \/ f ["node_modules"] = Some EDir ->
      iattempts g lock f None f1 m1 -> isteps f1 m1 g lock w -> w_phase _ w = Done -> history g (w_fs _ w)
  | h_switch g f m (lock : LOCK) w : tree g -> no_collision hex8 (paths g) -> f ["node_modules"] = None \/ f ["node_modules"] = Some EDir ->
      f ["node_modules"; ".oro-store"] = None -> isteps f m g lock w -> w_phase _ w = Done -> history g (w_fs _ w)
  | h_next g0 g f a (lock : LOCK) w : history g0 f -> tree g -> no_collision hex8 (fun p => paths g0 p \/ paths g p) -> compatible g0 g ->
      isteps f (Some a) g lock w -> w_phase _ w = Done -> history g (w_fs _ w).

  Lemma self_apart g : no_collision hex8 (paths g) -> apart g g.
  Proof. intros H a b x Ha Hb. apply H; tauto. Qed.
  Lemma history_ok g f : history g f -> wf rsat canon anything g /\ apart g g /\ settled hex8 contents g f.
  Proof.
    intros H. induction H as [g f f1 m1 lock w T C Nm At S D|g f m lock w T C Nm St S D|g0 g f a lock w H IH T C Cm S D].
    - pose proof (tree_wf _ _ _ T) as W. pose proof (self_apart g C) as Ap. split; [exact W|]. split; [exact Ap|].
      assert (F : ifine hex8 contents g LOCK f1 m1).
      { eapply (ifine_attempts hex8 Hhex root contents Hcont rsat canon anything g W Ap LOCK lock); [|exact At]. split; auto. }
      apply (exact_settled hex8 contents rsat canon anything g W).
      apply (ifine_exact hex8 Hhex root contents Hcont rsat canon anything g W Ap LOCK lock f1 m1 w F S D).
    - pose proof (tree_wf _ _ _ T) as W. pose proof (self_apart g C) as Ap. split; [exact W|]. split; [exact Ap|].
      apply (exact_settled hex8 contents rsat canon anything g W).
      refine (proj2 (wipe_run hex8 Hhex root contents Hcont rsat canon anything g W Ap LOCK lock m f w _ Nm S D)).
      unfold iwipes. fold store_name in St. rewrite St. now destruct m.
    - destruct IH as (W0 & A0 & S0). pose proof (tree_wf _ _ _ T) as W. assert (Ap : apart g g) by (intros p q x Hp Hq; apply C; tauto). split; [exact W|]. split; [exact Ap|].
      apply (up_run hex8 Hhex root Hroot contents Hcont rsat canon anything g W Ap LOCK lock g0 a f w W0 C Cm S0 S D).
  Qed.

  (** C18: every package's store directory holds exactly the files of the resolved version (its own node_modules apart).
      Missing: upgrades that keep a path but change the version, and kills during an upgrade (C18_refuted, C18_killed_refuted). *)
  Theorem C18_partial : forall g f, history g f -> forall p i n, installed_at g i p -> p <> [] -> getn g i = Some n ->
    forall fl e, (forall t, fl <> "node_modules" :: t) ->
    (f (home p ++ fl) = Some e <-> holds (contents (pk_resolved (n_pkg n))) fl e).
  Proof.
    intros g f H p i n Hi Hp Hn fl e Hfl. destruct (history_ok g f H) as (W & Ap & S).
    apply (look_files hex8 Hhex contents Hcont rsat canon anything g W Ap f S i p n Hi); auto.
    intros ->. apply Hp. pose proof (path_node rsat canon anything g 0 p W Hi) as [_ ->]. destruct W as ((q0 & P0 & I) & _).
    destruct (gi_root _ _ _ _ _ _ I) as [Hz Hr]. apply node_path_root; auto; exact (ginv_parlt _ _ _ _ _ _ I).
  Qed.
  (** nothing outside node_modules is touched, at any moment *)
  Theorem C18_outside : forall g f m (lock : LOCK) w, tree g -> no_collision hex8 (paths g) -> f ["node_modules"] = None \/ f ["node_modules"] = Some EDir ->
    m = None \/ f ["node_modules"; ".oro-store"] = None -> isteps f m g lock w -> forall q, ~ prefix ["node_modules"] q -> w_fs _ w q = f q.
  Proof.
    intros g f m lock w T C Nm Hm S. refine (wipe_outside hex8 Hhex root contents Hcont rsat canon anything g (tree_wf _ _ _ T) (self_apart g C) LOCK lock m f w _ Nm S).
    unfold iwipes. destruct m; [|auto]. destruct Hm as [Hm|Hm]; [discriminate|]. fold store_name in Hm. now rewrite Hm.
  Qed.

  (** C19, unless two 8-digit hashes collide: the directories of different packages are different, and not inside each other.
      Missing: collisions (C19_refuted). *)
  Theorem C19_partial : forall g i j p q, tree g -> no_collision hex8 (paths g) -> installed_at g i p -> installed_at g j q -> p <> [] -> q <> [] -> i <> j ->
    ~ prefix (home p) (home q).
  Proof.
    intros g i j p q T C Hi Hj Hp Hq Hne [r Hr]. pose proof (tree_wf _ _ _ T) as W. pose proof (self_apart g C) as Ap.
    destruct (path_node rsat canon anything g i p W Hi) as [Hil ->]. destruct (path_node rsat canon anything g j q W Hj) as [Hjl ->].
    pose proof W as ((q0 & P0 & I) & Hg & Hn).
    assert (Z : node_path g 0 = []) by (destruct (gi_root _ _ _ _ _ _ I) as [Hz Hz']; apply node_path_root; auto; exact (ginv_parlt _ _ _ _ _ _ I)).
    assert (Hi' : 0 < i < size g) by (destruct i; [congruence|lia]). assert (Hj' : 0 < j < size g) by (destruct j; [congruence|lia]).
    rewrite (home_loc hex8 rsat canon anything g i W Hi'), (home_loc hex8 rsat canon anything g j W Hj'), (pkg_dir_loc hex8 g Hn i Hi'), (pkg_dir_loc hex8 g Hn j Hj') in Hr.
    rewrite <- (app_nil_r (sloc (dir_name hex8 g j) _)) in Hr.
    apply (sloc_here hex8 Hhex rsat canon anything g q0 P0 I Hg (col_inj hex8 Hhex rsat canon anything g W Ap)) in Hr; auto; [|discriminate].
    destruct Hr as [E _]. congruence.
  Qed.

  (** C20: for every declared dependency there is a link that leads to the package it was resolved to ... *)
  Theorem C20_links_partial : forall g f, history g f -> forall p i x s t, installed_at g i p -> declares g i x s t ->
    exists c pc, depends g i x c /\ installed_at g c pc /\ leads f (deps_dir p ++ comps x) (home pc).
  Proof.
    intros g f H p i x s t Hi Hd. destruct (history_ok g f H) as (W & Ap & S).
    assert (T : tree g) by (destruct H; assumption). destruct (tree_declares _ _ _ _ _ _ _ T Hd) as [c Hc].
    pose proof W as ((q0 & P0 & I) & Hg & Hn). destruct (depends_lt rsat canon anything g q0 P0 I _ _ _ Hc) as (_ & Hcl & _).
    exists c, (node_path g c). split; [auto|]. assert (Ic : installed_at g c (node_path g c)) by (apply (at_path rsat canon anything g c W); lia).
    split; [exact Ic|]. exact (look_link hex8 Hhex contents rsat canon anything g W f S i p x c _ Hi Hc Ic).
  Qed.
  (** ... and nothing else is in the package's node_modules directory, except directories for scopes it uses (and the store, in
      the project's). Missing: dependencies that are no longer declared (C20_refuted). *)
  Theorem C20_only_partial : forall g f, history g f -> forall p i r e, installed_at g i p -> r <> [] -> f (deps_dir p ++ r) = Some e ->
    (p = [] -> forall t, r <> ".oro-store" :: t) ->
    (exists x c, depends g i x c /\ r = comps x) \/ (exists s y c, depends g i (String "@" s ++ "/" ++ y) c /\ r = [String "@" s] /\ e = EDir).
  Proof.
    intros g f H p i r e Hi Hr Hf Hst. destruct (history_ok g f H) as (W & Ap & S).
    destruct (look_only hex8 Hhex contents Hcont rsat canon anything g W Ap f S i p r e Hi Hr Hf) as [Hl|(s & y & c & H1 & _ & H2 & H3)]; [|auto|right; eauto 8].
    intros ->. apply Hst. pose proof (path_node rsat canon anything g 0 p W Hi) as [_ ->]. destruct W as ((q0 & P0 & I) & _).
    destruct (gi_root _ _ _ _ _ _ I) as [Hz Hz']. apply node_path_root; auto; exact (ginv_parlt _ _ _ _ _ _ I).
  Qed.
End World.

(** ** concrete installs *)
Definition hexdigit (n : N) : Ascii.ascii := Ascii.ascii_of_N (if N.ltb n 10 then 48 + n else 87 + n).
Fixpoint hexdigits (k : nat) (n : N) : string := match k with O => "" | S k => String (hexdigit (N.modulo n 16)) (hexdigits k (N.div n 16)) end.
Fixpoint summing (h : N) (s : string) : N := match s with EmptyString => h | String c s => summing (N.modulo (h * 31 + Ascii.N_of_ascii c) 4294967296) s end.
(** any function to eight hexadecimal digits will do for examples *)
Definition ex_hex (s : string) : string := hexdigits 8 (summing 7 s).
Lemma hexdigit_ok n : (n < 16)%N -> Ascii.eqb (hexdigit n) "/" = false /\ ufold (String (hexdigit n) "") = String (hexdigit n) "".
Proof.
  intros H. assert (D : forallb (fun k => negb (Ascii.eqb (hexdigit k) "/") && String.eqb (ufold (String (hexdigit k) "")) (String (hexdigit k) "")) [0;1;2;3;4;5;6;7;8;9;10;11;12;13;14;15]%N = true) by (vm_compute; reflexivity).
  rewrite forallb_forall in D. specialize (D n). rewrite andb_true_iff, negb_true_iff, String.eqb_eq in D. apply D. cbn [In]. lia.
Qed.
Lemma ex_hex_ok : hex_ok ex_hex.
Proof.
  intros s. unfold ex_hex. generalize (summing 7 s) as n. intros n. 
  assert (G : forall k n, String.length (hexdigits k n) = k /\ no_slash (hexdigits k n) = true /\ ufold (hexdigits k n) = hexdigits k n); [|apply G].
  clear. induction k as [|k IH]; intros n; [repeat split; reflexivity|]. cbn [hexdigits]. destruct (IH (N.div n 16)) as (L & NS & U).
  destruct (hexdigit_ok (N.modulo n 16)) as [H1 H2]; [apply N.mod_lt; discriminate|]. split; [cbn; now rewrite L|]. split; [cbn; rewrite H1, NS; reflexivity|].
  cbn [ufold] in H2 |- *. injection H2 as H2. rewrite U, H2. reflexivity.
Qed.
Definition ex_root : path := ["/"; "home"; "project"].
Definition ex_isteps f m g := isteps ex_hex ex_root ex_contents f m g (ex_lock g).
Definition ex_iorun f (m : option (list (string * lnode))) g supp ops :=
  orun _ (idoomed ex_hex ex_root f m g) (iwipes f m) (map FsPad.pad (iinsts ex_hex ex_contents g)) (ex_lock g) supp (mkW _ f m Pruning) ops.
Lemma ex_iorun_sound f m g supp ops w : (forall q, f q <> None -> In q supp) -> ex_iorun f m g supp ops = Some w -> ex_isteps f m g w.
Proof. intros H E. unfold ex_isteps, isteps. eapply orun_sound; [|exact E]. exact H. Qed.
Definition isupp (g : graph) : list path := supp_of (map FsPad.pad (iinsts ex_hex ex_contents g)).
Lemma ex_isupp f m g w supp : (forall q, f q <> None -> In q supp) -> ex_isteps f m g w -> forall q, w_fs _ w q <> None -> In q (supp ++ isupp g).
Proof. intros H S. eapply wsteps_supp; [exact H | exact S]. Qed.
Definition ifresh_ops (g : graph) : list op := OPruned :: flat_map (fun i => OStart :: map (fun _ => OPut 0) (items i)) (map FsPad.pad (iinsts ex_hex ex_contents g)) ++ [ODone].
(** a first install of [g], one package after the other *)
Definition ifresh (g : graph) : world (list (string * lnode)) := getw (ex_iorun empty_fs None g [] (ifresh_ops g)).
Definition iready (g : graph) : bool := isSome (ex_iorun empty_fs None g [] (ifresh_ops g)) && match w_phase _ (ifresh g) with Done => true | _ => false end.
Lemma ifresh_run g : iready g = true -> ex_isteps empty_fs None g (ifresh g) /\ w_phase _ (ifresh g) = Done /\ forall q, w_fs _ (ifresh g) q <> None -> In q (isupp g).
Proof.
  intros H. apply andb_true_iff in H. destruct H as [H1 H2]. assert (S : ex_isteps empty_fs None g (ifresh g)).
  { eapply ex_iorun_sound; [|exact (isSome_getw _ _ H1)]. intros q Hq. destruct (Hq eq_refl). }
  split; [exact S|]. split; [destruct (w_phase _ (ifresh g)); congruence|].
  apply (ex_isupp empty_fs None g (ifresh g) []); [intros q Hq; destruct (Hq eq_refl) | exact S].
Qed.

(** the trees: foo 1.0.0; foo 2.0.0; @s/y; foo 1.0.0 and @s/y; package a with its own x (C15's example) *)
Definition two_man := man [("foo", "1.0.0"); ("@s/y", "1.0.0")].
Definition two : st := get (ex_run (init (mk_root two_man))
  [APop; AChunk 2 [rs reg7 (npm "foo" (VVersion (v 1 0))); rs reg7 (npm "@s/y" (VVersion (v 1 0)))]; APop; APop]) (mk_root two_man).
Definition g_two := s_g two.
Definition t_foo1 := s_g foo1.
Definition t_foo2 := s_g foo2.
Definition t_scoped := s_g scoped.
Definition t_a := s_g (end8 (v 1 1)).
Definition iname_ok (g : graph) : bool := forallb (fun i => match getn g i with Some n => (Nat.eqb i 0 || String.eqb (pk_name (n_pkg n)) (n_name n))%bool | None => true end) (seq 0 (size g)).
Lemma iname_ok_spec g : iname_ok g = true -> named g.
Proof.
  unfold iname_ok. rewrite forallb_forall. intros H i n Hn Hi. specialize (H i). rewrite Hn in H. apply Nat.eqb_neq in Hi. rewrite Hi in H.
  apply String.eqb_eq. apply H. apply in_seq. split; [lia|]. apply getn_lt. eauto.
Qed.
Definition ex_tree := tree ex_rsat ex_canon.
Lemma ex_tree_intro reg m sched : let root := mk_root m in let s := get (ex_run (init root) sched) root in
  new_node ex_parse "root" root_pkg m true = Ok root -> Forall (honest reg) sched -> isSome (ex_run (init root) sched) = true -> finished s = true ->
  good_graphb (s_g s) = true -> iname_ok (s_g s) = true -> ex_tree (s_g s).
Proof.
  intros root s Hn Hh Hs Hf Hg Hi. split; [|split; [now apply good_graphb_spec | now apply iname_ok_spec]].
  exists ex_parse, unit, (fun _ => []), (fun _ => no_deps), (fun _ => Ok None), (ex_deliver reg), None, root, root_pkg, m, "root", s.
  split; [exact Hn|]. split; [|auto]. unfold s in *. destruct (ex_run (init root) sched) as [s'|] eqn:E; [|discriminate]. cbn [get]. eapply ex_run_reach; eauto.
Qed.
Lemma tree_foo1 : ex_tree t_foo1. Proof. unfold t_foo1. unfold foo1, one. apply ex_tree_intro with (reg := reg7); [reflexivity | repeat constructor | vm_compute; reflexivity ..]. Qed.
Lemma tree_foo2 : ex_tree t_foo2. Proof. unfold t_foo2. unfold foo2, one. apply ex_tree_intro with (reg := reg7); [reflexivity | repeat constructor | vm_compute; reflexivity ..]. Qed.
Lemma tree_scoped : ex_tree t_scoped. Proof. unfold t_scoped. unfold scoped, one. apply ex_tree_intro with (reg := reg7); [reflexivity | repeat constructor | vm_compute; reflexivity ..]. Qed.
Lemma tree_two : ex_tree g_two. Proof. unfold g_two, two. apply ex_tree_intro with (reg := reg7); [reflexivity | repeat constructor | vm_compute; reflexivity ..]. Qed.
Lemma tree_a : ex_tree t_a. Proof. unfold t_a. unfold end8. apply ex_tree_intro with (reg := reg8 (v 1 1)); [reflexivity | repeat constructor | vm_compute; reflexivity ..]. Qed.
(** no collisions among the paths of given trees *)
Definition all_paths (g : graph) : list (list string) := map (node_path g) (seq 1 (size g - 1)).
Definition distinct_hashes (l : list (list string)) : bool :=
  forallb (fun p => forallb (fun q => negb (String.eqb (ex_hex (path_key p)) (ex_hex (path_key q))) || (if path_eq_dec p q then true else false)) l) l.
Lemma ex_paths g p : ex_tree g -> paths g p -> In p (all_paths g).
Proof.
  intros T (i & Hi & Hp). pose proof (tree_wf _ _ _ T) as W. destruct (path_node ex_rsat ex_canon anything g i p W Hp) as [Hl ->].
  apply in_map. apply in_seq. lia.
Qed.
Lemma distinct_ok l (has : list string -> Prop) : distinct_hashes l = true -> (forall p, has p -> In p l) -> no_collision ex_hex has.
Proof.
  unfold distinct_hashes. rewrite forallb_forall. intros H Hl a b x Ha Hb E. specialize (H _ (Hl _ Ha)). rewrite forallb_forall in H. specialize (H _ (Hl _ Hb)).
  apply orb_true_iff in H. rewrite E, String.eqb_refl in H. destruct H as [H|H]; [discriminate|]. destruct (path_eq_dec (a ++ [x]) (b ++ [x])) as [H'|]; [|discriminate].
  apply app_inj_tail in H'. tauto.
Qed.
Notation ex_history := (history ex_rsat ex_canon ex_hex ex_root ex_contents (list (string * lnode))).
Lemma ifresh_history g : ex_tree g -> distinct_hashes (all_paths g) = true -> iready g = true -> ex_history g (w_fs _ (ifresh g)).
Proof.
  intros T D R. destruct (ifresh_run g R) as (S & F & _). eapply (h_first _ _ _ _ _ _ g empty_fs empty_fs None (ex_lock g) (ifresh g)); auto.
  - eapply distinct_ok; [exact D|]. intros p. now apply ex_paths.
  - constructor.
Qed.
(** C18-C20 apply to a first install of a tree with a nested package: a, its own x 1.1, and the project's x 1.0 *)
Example C18_install : ex_history t_a (w_fs _ (ifresh t_a))
  /\ w_fs _ (ifresh t_a) (home ex_hex ["a"; "x"] ++ ["package.json"]) = Some (EFile "1.1")
  /\ w_fs _ (ifresh t_a) (home ex_hex ["x"] ++ ["package.json"]) = Some (EFile "1.0")
  /\ w_fs _ (ifresh t_a) (deps_dir ex_hex ["a"] ++ ["x"]) = Some (ELink ([".."; ".."; ".."; ".."] ++ skipn 2 (home ex_hex ["a"; "x"]))).
Proof. split; [|vm_compute; auto]. apply ifresh_history; [exact tree_a | vm_compute; reflexivity | vm_compute; reflexivity]. Qed.
(** an upgrade that pruning can see: foo 1.0.0, then foo 1.0.0 and @s/y *)
Lemma ex_edge g i x c : ex_tree g -> depends g i x c -> name_of g c = x /\ exists e, In e (g_edges g) /\ e_from e = i /\ e_to e = c.
Proof. intros T. pose proof (tree_wf _ _ _ T) as ((q0 & P0 & I) & _). apply (depends_edge ex_rsat ex_canon anything g q0 P0 I). Qed.
Lemma ex_depends g i x c : ex_tree g -> name_of g c = x -> (exists e, In e (g_edges g) /\ e_from e = i /\ e_to e = c) -> depends g i x c.
Proof. intros T. pose proof (tree_wf _ _ _ T) as ((q0 & P0 & I) & _). intros H1 H2. apply (depends_edge ex_rsat ex_canon anything g q0 P0 I). auto. Qed.
Lemma ex_installed g i p : ex_tree g -> installed_at g i p -> i < size g /\ p = node_path g i.
Proof. intros T. apply (path_node ex_rsat ex_canon anything g i p (tree_wf _ _ _ T)). Qed.
Lemma ex_compatible : compatible t_foo1 g_two.
Proof.
  split.
  - intros p i0 n0 i n Hp H0 H Hn0 Hn. destruct (ex_installed _ _ _ tree_foo1 H0) as [L0 E0]. destruct (ex_installed _ _ _ tree_two H) as [L E]. rewrite E0 in E.
    change (size t_foo1) with 2 in L0. change (size g_two) with 3 in L. destruct i0 as [|[|i0]]; [destruct Hp; rewrite E0; vm_compute; reflexivity| |lia].
    destruct i as [|[|[|i]]]; [vm_compute in E; discriminate E | | vm_compute in E; discriminate E | clear - L; lia]. vm_compute in Hn0, Hn. injection Hn0 as <-. injection Hn as <-. reflexivity.
  - intros p i0 i x c0 p0 H0 H Hd Hc. destruct (ex_installed _ _ _ tree_foo1 H0) as [L0 E0]. destruct (ex_installed _ _ _ tree_two H) as [L E]. rewrite E0 in E.
    destruct (ex_edge _ _ _ _ tree_foo1 Hd) as (<- & e & He & <- & <-). vm_compute in He. destruct He as [<-|[]]. cbn [e_from e_to] in *.
    change (size g_two) with 3 in L. destruct i as [|[|[|i]]]; [ | vm_compute in E; discriminate E | vm_compute in E; discriminate E | clear - L; lia].
    exists 1. split; [|intros Hs; vm_compute in Hs; discriminate]. apply (ex_depends _ _ _ _ tree_two); [vm_compute; reflexivity|].
    vm_compute. eexists. split; [left; reflexivity|auto].
Qed.
Definition foo_link : path := ["node_modules"; "foo"].
Definition grown : world (list (string * lnode)) :=
  getw (ex_iorun (w_fs _ (ifresh t_foo1)) (Some (ex_lock t_foo1)) g_two (isupp t_foo1)
    ([ORemove foo_link; OPruned; OStart; OPut 0; OStart; OPut 0; OPut 0; OPut 0; OPut 0; OStart; OStart] ++ [OPut 0; OPut 0; OPut 0; ODone])).
Lemma grown_run : ex_isteps (w_fs _ (ifresh t_foo1)) (Some (ex_lock t_foo1)) g_two grown /\ w_phase _ grown = Done.
Proof.
  split; [|vm_compute; reflexivity]. eapply ex_iorun_sound; [apply ifresh_run; vm_compute; reflexivity|]. apply isSome_getw. vm_compute. reflexivity.
Qed.
Example C18_upgrade : ex_history g_two (w_fs _ grown)
  /\ w_fs _ grown (home ex_hex ["foo"] ++ ["package.json"]) = Some (EFile "1.0") /\ w_fs _ grown (home ex_hex ["@s/y"] ++ ["package.json"]) = Some (EFile "1.0")
  /\ (exists t, w_fs _ grown ["node_modules"; "foo"] = Some (ELink t)) /\ exists t, w_fs _ grown ["node_modules"; "@s"; "y"] = Some (ELink t).
Proof.
  destruct grown_run as [S D]. split; [|vm_compute; split; [auto|split; [auto|split; eexists; reflexivity]]].
  eapply (h_next _ _ _ _ _ _ t_foo1 g_two (w_fs _ (ifresh t_foo1)) (ex_lock t_foo1) (ex_lock g_two)); auto.
  - apply ifresh_history; [exact tree_foo1 | vm_compute; reflexivity | vm_compute; reflexivity].
  - exact tree_two.
  - eapply (distinct_ok (all_paths t_foo1 ++ all_paths g_two)); [vm_compute; reflexivity|]. intros p [H|H]; apply in_app_iff; [left; now apply ex_paths; [exact tree_foo1|] | right; now apply ex_paths; [exact tree_two|]].
  - exact ex_compatible.
Qed.

(** The full C18 is false. foo is upgraded from 1.0.0 to 2.0.0: the name of its store directory depends on its path only, so
    the directory is taken for the new one and the old files stay. *)
Definition not_upgraded : world (list (string * lnode)) :=
  getw (ex_iorun (w_fs _ (ifresh t_foo1)) (Some (ex_lock t_foo1)) t_foo2 (isupp t_foo1) [ORemove foo_link; OPruned; OStart; OPut 0; OStart; OPut 0; OPut 0; OStart; ODone]).
Theorem C18_refuted : exists g0 g f (lock0 lock : list (string * lnode)) w,
  tree ex_rsat ex_canon g0 /\ tree ex_rsat ex_canon g /\ no_collision ex_hex (fun p => paths g0 p \/ paths g p)
  (* a first install of g0 *)
  /\ (exists w0, isteps ex_hex ex_root ex_contents empty_fs None g0 lock0 w0 /\ w_phase _ w0 = Done /\ w_fs _ w0 = f /\ w_meta _ w0 = Some lock0)
  (* then a completed apply of g *)
  /\ isteps ex_hex ex_root ex_contents f (Some lock0) g lock w /\ w_phase _ w = Done
  /\ exists i n, installed_at g i ["foo"] /\ getn g i = Some n /\ In (["package.json"], "2.0") (ex_contents (pk_resolved (n_pkg n)))
       /\ w_fs _ w (home ex_hex ["foo"] ++ ["package.json"]) = Some (EFile "1.0").
Proof.
  exists t_foo1, t_foo2, (w_fs _ (ifresh t_foo1)), (ex_lock t_foo1), (ex_lock t_foo2), not_upgraded. destruct (ifresh_run t_foo1 ltac:(vm_compute; reflexivity)) as (S & D & Sp).
  split; [exact tree_foo1|]. split; [exact tree_foo2|]. split.
  { eapply (distinct_ok (all_paths t_foo1 ++ all_paths t_foo2)); [vm_compute; reflexivity|]. intros p [H|H]; apply in_app_iff; [left; now apply ex_paths; [exact tree_foo1|] | right; now apply ex_paths; [exact tree_foo2|]]. }
  split; [exists (ifresh t_foo1); split; [exact S|]; split; [exact D|]; split; [reflexivity | vm_compute; reflexivity]|].
  split; [eapply ex_iorun_sound; [exact Sp|]; apply isSome_getw; vm_compute; reflexivity|]. split; [vm_compute; reflexivity|].
  exists 1. eexists. split; [apply (at_child _ 0 []); [constructor | vm_compute; reflexivity]|]. split; [vm_compute; reflexivity|]. split; [vm_compute; auto | vm_compute; reflexivity].
Qed.
(** Nor does it survive a kill during a compatible upgrade: @s/y is added, the run is killed after creating its directory; the
    next run takes the empty directory for an installed package. *)
Definition killed_two : world (list (string * lnode)) :=
  getw (ex_iorun (w_fs _ (ifresh t_foo1)) (Some (ex_lock t_foo1)) g_two (isupp t_foo1)
    [ORemove foo_link; OPruned; OStart; OPut 0; OStart; OPut 0; OPut 0; OPut 0; OPut 0; OStart; OStart; OPut 0]).
Definition ended_two : world (list (string * lnode)) :=
  getw (ex_iorun (w_fs _ killed_two) (w_meta _ killed_two) g_two (isupp t_foo1 ++ isupp g_two) [ORemove foo_link; OPruned; OStart; OPut 0; OStart; OPut 0; OPut 0; OPut 0; OPut 0; OStart; OStart; ODone]).
Lemma killed_two_run : ex_isteps (w_fs _ (ifresh t_foo1)) (Some (ex_lock t_foo1)) g_two killed_two.
Proof. eapply ex_iorun_sound; [apply ifresh_run; vm_compute; reflexivity|]. apply isSome_getw. vm_compute. reflexivity. Qed.
Theorem C18_killed_refuted : exists g0 g f (lock0 lock : list (string * lnode)) w w',
  ex_history g0 f /\ tree ex_rsat ex_canon g /\ compatible g0 g
  /\ isteps ex_hex ex_root ex_contents f (Some lock0) g lock w
  /\ isteps ex_hex ex_root ex_contents (w_fs _ w) (w_meta _ w) g lock w' /\ w_phase _ w' = Done
  /\ exists i n, installed_at g i ["@s/y"] /\ getn g i = Some n /\ In (["package.json"], "1.0") (ex_contents (pk_resolved (n_pkg n)))
       /\ w_fs _ w' (home ex_hex ["@s/y"]) = Some EDir /\ w_fs _ w' (home ex_hex ["@s/y"] ++ ["package.json"]) = None.
Proof.
  exists t_foo1, g_two, (w_fs _ (ifresh t_foo1)), (ex_lock t_foo1), (ex_lock g_two), killed_two, ended_two.
  split; [apply ifresh_history; [exact tree_foo1 | vm_compute; reflexivity | vm_compute; reflexivity]|]. split; [exact tree_two|]. split; [exact ex_compatible|].
  split; [exact killed_two_run|]. split.
  { eapply ex_iorun_sound; [apply (ex_isupp _ _ _ _ _ (proj2 (proj2 (ifresh_run t_foo1 ltac:(vm_compute; reflexivity)))) killed_two_run)|]. apply isSome_getw. vm_compute. reflexivity. }
  split; [vm_compute; reflexivity|].
  exists 2. eexists. split; [apply (at_child _ 0 []); [constructor | vm_compute; reflexivity]|]. split; [vm_compute; reflexivity|]. split; [vm_compute; auto|]. split; vm_compute; reflexivity.
Qed.
(** The full C20 is false: foo is no longer a dependency, its store directory is removed, but the link node_modules/foo stays
    and leads nowhere. *)
Definition dropped : world (list (string * lnode)) :=
  getw (ex_iorun (w_fs _ (ifresh t_foo1)) (Some (ex_lock t_foo1)) t_scoped (isupp t_foo1)
    (map ORemove [home ex_hex ["foo"] ++ ["lib"; "index.js"]; home ex_hex ["foo"] ++ ["lib"]; home ex_hex ["foo"] ++ ["package.json"]; home ex_hex ["foo"]; firstn 4 (home ex_hex ["foo"]); firstn 3 (home ex_hex ["foo"])]
     ++ [OPruned; OStart; OPut 0; OStart; OPut 0; OPut 0; OStart; OPut 0; OPut 0; OPut 0; ODone])).
Theorem C20_refuted : exists g0 g f (lock0 lock : list (string * lnode)) w q t,
  ex_history g0 f /\ tree ex_rsat ex_canon g /\ no_collision ex_hex (fun p => paths g0 p \/ paths g p)
  /\ isteps ex_hex ex_root ex_contents f (Some lock0) g lock w /\ w_phase _ w = Done
  /\ w_fs _ w (deps_dir ex_hex [] ++ ["foo"]) = Some (ELink t) /\ (forall c, ~ depends g 0 "foo" c)
  /\ walk (deps_dir ex_hex []) t = Some q /\ w_fs _ w q = None.
Proof.
  exists t_foo1, t_scoped, (w_fs _ (ifresh t_foo1)), (ex_lock t_foo1), (ex_lock t_scoped), dropped. eexists. eexists.
  split; [apply ifresh_history; [exact tree_foo1 | vm_compute; reflexivity | vm_compute; reflexivity]|]. split; [exact tree_scoped|]. split.
  { eapply (distinct_ok (all_paths t_foo1 ++ all_paths t_scoped)); [vm_compute; reflexivity|]. intros p [H|H]; apply in_app_iff; [left; now apply ex_paths; [exact tree_foo1|] | right; now apply ex_paths; [exact tree_scoped|]]. }
  split; [eapply ex_iorun_sound; [apply ifresh_run; vm_compute; reflexivity|]; apply isSome_getw; vm_compute; reflexivity|]. split; [vm_compute; reflexivity|].
  split; [vm_compute; reflexivity|]. split; [|split; [vm_compute; reflexivity|vm_compute; reflexivity]].
  intros c H. destruct (ex_edge _ _ _ _ tree_scoped H) as (Hn & e & He & _ & <-). vm_compute in He. destruct He as [<-|[]]. vm_compute in Hn. discriminate Hn.
Qed.

Print Assumptions C18_partial.
Print Assumptions C18_outside.
Print Assumptions C19_partial.
Print Assumptions C20_links_partial.
Print Assumptions C20_only_partial.
Print Assumptions C18_refuted.
Print Assumptions C18_killed_refuted.
Print Assumptions C20_refuted.
