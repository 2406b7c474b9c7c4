(** * Properties C06 and C03 (second part): a lockfile pins the tree; what is installed follows the manifests.
    Vocabulary: [reach root s]: [s] is a state of a resolution started with only the project's own package.json; [finished s];
    [tree_src g path r] (LockfileReplay): the tree has a package at node_modules path [path] with the version, URL and integrity of [r];
    [same_tree g g'] (LockfileReplay): the same packages at the same paths, with the same dependencies, linked to the same paths;
    [declares g i x sp t], [linked g i x sp t c], [visible g i x c]: ResolverSpec;
    [pinned g] (LockfileReplay): each dependency is linked to the copy Node would load, that copy satisfies the request, and no
    copy hidden behind it does; [asks m is_root x sp t] (ResolverDecl): what a package.json asks for;
    [lock_view lf], [keyed_by_path lf] (LockfileView): the lockfile as a map from package paths to entries. *)
From Verif Require Import Base Types Kdl ResolverModel ResolverProofs ResolverRun ResolverSpec ResolverThms ResolverSteps ResolverTerm
  ResolverFacts ResolverDecl ResolverExamples LockfileModel LockfileSpec LockfileProofs LockfileGraph LockfileFacts LockfileReplay LockfileReplayRun LockfileView.
From Coq Require Import Permutation.
Open Scope string_scope.
Open Scope list_scope.

Section World.
  Variable rsat : range -> version -> bool.
  Variable canon : string -> option string.
  Variable parse_dep : string -> string -> res err pspec.
  Variable requested : pspec -> string.
  Variable gitshow : gitinfo -> string.
  Variable vshow : version -> string.
  Variable vparse : string -> option version.
  Variable iparse : string -> option string.
  Variable parse_spec : string -> res err pspec.
  Variable parse_url : string -> option string.
  Variable lookup : string -> res err package.
  Variable spec_show : pspec -> string.
  Notation to_package := (to_package vshow parse_spec parse_url lookup spec_show).
  Notation reach := (reach rsat canon parse_dep lnode entry_path lnode_manifest to_package).
  Notation steps := (steps rsat canon parse_dep lnode entry_path lnode_manifest to_package).
  Notation exec := (exec rsat canon parse_dep lnode entry_path lnode_manifest to_package).

  (** Every package of the tree but the project itself came from the registry, and its name, version, URL and integrity can
      be read back from text. *)
  Definition registry_tree (g : graph) : Prop :=
    forall i n, getn g i = Some n -> i <> 0 -> exists nm v url integ, pk_resolved (n_pkg n) = RNpm nm v url integ
      /\ valid_name (name_of g i)
      /\ vparse (vshow v) = Some v /\ (forall s, integ = Some s -> iparse s = Some s)
      /\ starts_with "http" url = true /\ parse_url url = Some url
      /\ exists sc nm' r, parse_spec (name_of g i ++ "@" ++ vshow v)%string = Ok (SNpm sc nm' r).

  Lemma replay_registry : forall deliver0 lock0 root pkg m name rname dir, new_node parse_dep name pkg m true = Ok root ->
    forall s, reach deliver0 lock0 root s -> finished s = true ->
    registry_tree (s_g s) -> pk_resolved pkg = RDir rname dir ->
    (forall i x sp t, declares (s_g s) i x sp t -> parse_dep x (requested sp) = Ok sp) ->
    pinned rsat canon (s_g s) ->
    exists lf lf', to_lockfile requested gitshow (s_g s) = Ok lf /\ from_kdl vparse iparse (to_kdl vshow lf) = Ok lf'
    /\ keyed_by_path lf' /\ Permutation (lf_packages lf') (map (fun i => (path_key (node_path (s_g s) i), norm (entry requested gitshow (s_g s) i))) (rest (s_g s)))
    /\ forall deliver n s', steps deliver (Some (lock_view lf')) root n s' ->
         waiting s' = [] /\ n <= size (s_g s)
         /\ (forall a r, exec (Some (lock_view lf')) s' a = Some r -> exists s'', r = Ok s'')
         /\ (forall i nd, getn (s_g s') i = Some nd -> i <> 0 -> pk_name (n_pkg nd) = name_of (s_g s') i)
         /\ (finished s' = true -> same_tree (s_g s') (s_g s)).
  Proof.
    intros deliver0 lock0 root pkg m name rname dir Hroot s Hs Hfin Hreg Hr0 Hparse Hpin.
    assert (H0 : forall n, getn (s_g s) 0 = Some n -> n_pkg n = pkg).
    { intros n Hn. assert (Hp : pkg_of (s_g s) 0 = Some (n_pkg root)) by (eapply root_kept; eauto).
      unfold pkg_of in Hp. rewrite Hn in Hp. injection Hp as ->. destruct (new_node_ok _ _ _ _ _ _ Hroot) as (_ & -> & _). reflexivity. }
    apply (replay_lockfile rsat canon parse_dep requested gitshow vshow vparse iparse to_package deliver0 lock0 root pkg m name Hroot s Hs Hfin); auto.
    - intros i n nm v u o Hn Hr. destruct i as [|i]; [rewrite (H0 n Hn) in Hr; congruence|].
      destruct (Hreg (S i) n Hn ltac:(lia)) as (nm' & v' & u' & o' & E & _ & Hv & _). rewrite E in Hr. injection Hr as _ <- _ _. exact Hv.
    - intros i Hi. destruct (proj1 (getn_lt (s_g s) i) ltac:(lia)) as [n Hn].
      destruct (Hreg i n Hn ltac:(lia)) as (nm' & v' & u' & o' & _ & H & _). exact H.
    - intros i n nm v u o Hn Hr. destruct i as [|i]; [rewrite (H0 n Hn) in Hr; congruence|].
      destruct (Hreg (S i) n Hn ltac:(lia)) as (nm' & v' & u' & o' & E & _ & _ & Hi & _). rewrite E in Hr. injection Hr as _ _ _ ->. now apply Hi.
    - intros i n Hn Hi. destruct (Hreg i n Hn Hi) as (nm & v & u & o & E & _ & _ & _ & Hh & Hu & sc & nm' & r & Hsp).
      assert (Hlt : i < size (s_g s)) by (apply getn_lt; eauto).
      assert (D : describes requested gitshow (s_g s) i (entry requested gitshow (s_g s) i)).
      { eapply (entry_describes rsat canon parse_dep lnode entry_path lnode_manifest to_package deliver0 lock0 requested gitshow root pkg m name Hroot s Hs); eauto.
        apply entry_eq; auto. }
      destruct (entry_eq requested gitshow (s_g s) i Hlt) as [E1 E2].
      destruct D as (n' & Hn' & _ & _ & Hd & _). rewrite Hn in Hn'. injection Hn' as <-. rewrite E in Hd. destruct Hd as (Dv & Du & Di).
      set (ln := entry requested gitshow (s_g s) i) in *.
      assert (Hnr : l_is_root ln = false).
      { unfold node_lnode in E1. rewrite Hn in E1. injection E1 as E1. rewrite <- E1. reflexivity. }
      pose proof (reach_inv _ _ _ _ _ _ _ _ _ _ _ _ _ _ Hroot Hs) as [I _ _ _ _]. pose proof (ginv_parlt _ _ _ _ _ _ I) as Hp.
      destruct (gi_par _ _ _ _ _ _ I i ltac:(lia)) as (pp & Hpp & _).
      assert (Hlast : match rev (l_path ln) with x :: _ => x | [] => "" end = name_of (s_g s) i).
      { rewrite E2, (node_path_step (s_g s) Hp i pp Hlt Hi Hpp), rev_app_distr. reflexivity. }
      exists (mkPkg (name_of (s_g s) i) (SNpm sc nm' r) (RNpm nm' v u o)). split; [|split; [rewrite E; reflexivity|reflexivity]].
      unfold LockfileModel.to_package, norm. rewrite Hnr. cbn [l_resolved l_version l_name l_integrity]. rewrite Dv, Du, Hlast, Hh, Hsp.
      cbn [rbind target]. rewrite Hu, Di. reflexivity.
  Qed.
  (** C06 for registry trees whose dependencies are [pinned]: the lockfile written for the tree can be read back, and a
      resolution that starts from it and the same package.json, whatever the registry has become ([deliver]) and whatever
      the order of events: never waits for the registry, never fails, takes at most as many steps as there are packages,
      and when it ends has exactly the same package (version, tarball URL and integrity) at every path, with the same dependencies and links.
      Missing: trees with hidden satisfying copies (C06_refuted) and packages that are not from the registry. *)
  Theorem C06_partial : forall deliver0 lock0 root pkg m name rname dir, new_node parse_dep name pkg m true = Ok root ->
    forall s, reach deliver0 lock0 root s -> finished s = true ->
    registry_tree (s_g s) -> pk_resolved pkg = RDir rname dir ->
    (forall i x sp t, declares (s_g s) i x sp t -> parse_dep x (requested sp) = Ok sp) ->
    pinned rsat canon (s_g s) ->
    exists lf lf', to_lockfile requested gitshow (s_g s) = Ok lf /\ from_kdl vparse iparse (to_kdl vshow lf) = Ok lf'
    /\ keyed_by_path lf'
    /\ forall deliver n s', steps deliver (Some (lock_view lf')) root n s' ->
         waiting s' = [] /\ n <= size (s_g s)
         /\ (forall a r, exec (Some (lock_view lf')) s' a = Some r -> exists s'', r = Ok s'')
         /\ (finished s' = true -> same_tree (s_g s') (s_g s)).
  Proof.
    intros deliver0 lock0 root pkg m name rname dir Hroot s Hs Hfin Hreg Hr0 Hparse Hpin.
    destruct (replay_registry _ _ _ _ _ _ _ _ Hroot s Hs Hfin Hreg Hr0 Hparse Hpin) as (lf & lf' & H1 & H2 & H3 & _ & H4).
    exists lf, lf'. split; [exact H1|]. split; [exact H2|]. split; [exact H3|]. intros deliver n s' St.
    destruct (H4 deliver n s' St) as (A & B & C & _ & D). auto.
  Qed.
End World.
Print Assumptions C06_partial.

Section Manifests.
  Variable rsat : range -> version -> bool.
  Variable canon : string -> option string.
  Variable parse_dep : string -> string -> res err pspec.
  Variable lnodeT : Type.
  Variable lpath : lnodeT -> list string.
  Variable lman : lnodeT -> manifest.
  Variable topkg : lnodeT -> res err (option package).
  Variable deliver : pspec -> outcome -> Prop.
  Variable lock : option (lockpkgs lnodeT).
  Notation reach := (reach rsat canon parse_dep lnodeT lpath lman topkg deliver lock).

  (** C03, what "every dependency" means: in every state of every resolution the project depends on exactly what its
      package.json asks for, development dependencies included, and each other package on exactly what the manifest it came
      with asks for, development dependencies excluded. *)
  Theorem C03_follows_manifests : forall root pkg m name, new_node parse_dep name pkg m true = Ok root -> forall s, reach root s ->
    (forall x sp t, declares (s_g s) 0 x sp t <-> asks parse_dep m true x sp t)
    /\ forall i n, getn (s_g s) i = Some n -> i <> 0 -> exists m', came_with lnodeT lman topkg deliver lock (n_pkg n) m'
         /\ forall x sp t, declares (s_g s) i x sp t <-> asks parse_dep m' false x sp t.
  Proof. exact (declared_manifest rsat canon parse_dep lnodeT lpath lman topkg deliver lock). Qed.
End Manifests.
Print Assumptions C03_follows_manifests.

(** ** concrete cases: a registry that serves tarball URLs; package names are one letter long *)
Definition vshow6 (x : version) : string :=
  if version_eqb x (v 1 0) then "1.0.0" else if version_eqb x (v 1 1) then "1.1.0" else if version_eqb x (v 2 0) then "2.0.0" else "?".
Definition vparse6 (s : string) : option version :=
  if String.eqb s "1.0.0" then Some (v 1 0) else if String.eqb s "1.1.0" then Some (v 1 1) else if String.eqb s "2.0.0" then Some (v 2 0) else None.
Definition requested6 (s : pspec) : string :=
  match s with SNpm _ _ (Some (VVersion x)) => vshow6 x | SNpm _ _ (Some (VRange r)) => r | SNpm _ _ (Some (VTag t)) => t | _ => "" end.
Definition git6 (_ : gitinfo) : string := "".
Definition parse_spec6 (s : string) : res err pspec := ex_parse (String.substring 0 1 s) (String.substring 2 5 s).
Definition to_pkg6 := to_package vshow6 parse_spec6 Some (fun _ => Err EFetch) requested6.
Definition answer6 (reg : registry) (s : pspec) : outcome :=
  match answer reg s with
  | Ok (mkPkg nm sp (RNpm n x u _), m) => Ok (mkPkg nm sp (RNpm n x ("https://r/" ++ n ++ "-" ++ vshow6 x)%string (Some "sha512-x")), m)
  | o => o
  end.
Definition deliver6 (reg : registry) (s : pspec) (o : outcome) : Prop := o = answer6 reg s.
Definition exec6 (lk : option lockfile) := exec ex_rsat ex_canon ex_parse lnode entry_path lnode_manifest to_pkg6 (option_map lock_view lk).
Definition reach6 (reg : registry) (lk : option lockfile) := reach ex_rsat ex_canon ex_parse lnode entry_path lnode_manifest to_pkg6 (deliver6 reg) (option_map lock_view lk).
Fixpoint run6 (lk : option lockfile) (s : st) (l : list action) : option st :=
  match l with
  | [] => Some s
  | a :: t => match exec6 lk s a with Some (Ok s') => run6 lk s' t | _ => None end
  end.
Definition honest6 (reg : registry) (a : action) : Prop :=
  match a with APop => True | AChunk _ l => Forall (fun r => snd r = answer6 reg (fst r)) l end.
Lemma run6_reach reg lk root l s' : Forall (honest6 reg) l -> run6 lk (init root) l = Some s' -> reach6 reg lk root s'.
Proof.
  assert (G : forall l s s', reach6 reg lk root s -> Forall (honest6 reg) l -> run6 lk s l = Some s' -> reach6 reg lk root s').
  { clear. induction l as [|a t IH]; cbn; intros s s' Hr Hh H; [inversion H; now subst|].
    inversion Hh; subst. destruct (exec6 lk s a) as [[s1| |]|] eqn:E; try discriminate.
    eapply IH; [|eauto|eauto]. econstructor; [exact Hr | | exact E]. destruct a; cbn in *; auto. }
  intros Hh H. eapply G; eauto. constructor.
Qed.
Definition rs6 (reg : registry) (s : pspec) : pspec * outcome := (s, answer6 reg s).

(** two copies of x *)
Definition sched6 : list action :=
  [APop; AChunk 2 [rs6 reg5 (npm "a" (VVersion (v 1 0))); rs6 reg5 (npm "b" (VVersion (v 1 0)))]; APop; APop;
   AChunk 2 [rs6 reg5 (npm "x" (VVersion (v 1 0))); rs6 reg5 (npm "x" (VVersion (v 2 0)))]; APop; APop].
Definition end6 : st := get (run6 None (init root5) sched6) root5.
Example tree6 : tree_of (s_g end6) = [([], v 0 0); (["a"], v 1 0); (["b"], v 1 0); (["x"], v 1 0); (["b"; "x"], v 2 0)].
Proof. vm_compute. reflexivity. Qed.
Lemma end6_reach : reach6 reg5 None root5 end6.
Proof. apply run6_reach with (l := sched6); [repeat constructor | vm_compute; reflexivity]. Qed.

(** the hypotheses of C06_partial, checked by running over the packages of a small tree *)
Definition back6 (g : graph) : lockfile :=
  match to_lockfile requested6 git6 g with
  | Ok lf => match from_kdl vparse6 Some (to_kdl vshow6 lf) with Ok lf' => lf' | _ => lf end
  | _ => mkLf 0 (mkLn "" false [] None None None [] [] [] []) []
  end.
Lemma all_lt (P : nat -> Prop) n : (forall i, i < n -> P i) <-> Forall P (seq 0 n).
Proof. rewrite Forall_forall. split; intros H i Hi; apply H; apply in_seq in Hi || apply in_seq; lia. Qed.

Ltac five i Hn := destruct i as [|[|[|[|[|i]]]]]; [vm_compute in Hn; injection Hn as <- .. | vm_compute in Hn; destruct i; discriminate].
Example C06_nonvacuous : finished end6 = true /\ registry_tree vshow6 vparse6 Some parse_spec6 Some (s_g end6)
  /\ (forall i x sp t, declares (s_g end6) i x sp t -> ex_parse x (requested6 sp) = Ok sp)
  /\ pinned ex_rsat ex_canon (s_g end6).
Proof.
  pose proof (reach_inv _ _ _ _ _ _ _ _ _ _ _ _ _ _ root5_new end6_reach) as SI. pose proof SI as [I _ _ _ _].
  assert (Esz : size (s_g end6) = 5) by (vm_compute; reflexivity).
  split; [vm_compute; reflexivity|]. split; [|split].
  - intros i n Hn Hi. five i Hn; [lia|..].
    all: do 4 eexists; split; [reflexivity|]; split; [left; split; [vm_compute; reflexivity | vm_compute; discriminate]|].
    all: split; [vm_compute; reflexivity|]; split; [intros s E; reflexivity|]; split; [vm_compute; reflexivity|]; split; [reflexivity|].
    all: do 3 eexists; vm_compute; reflexivity.
  - intros i x sp t (n & Hn & H). five i Hn.
    all: apply aget_In in H; [|apply seqb_spec]; cbn [n_reqs In] in H; repeat (destruct H as [H|H]; [injection H as <- <- <-; vm_compute; reflexivity|]); destruct H.
  - intros i x sp t Hd.
    assert (Hcases : (i = 0 /\ x = "a" /\ sp = npm "a" (VVersion (v 1 0)) /\ t = Prod) \/ (i = 0 /\ x = "b" /\ sp = npm "b" (VVersion (v 1 0)) /\ t = Prod)
      \/ (i = 1 /\ x = "x" /\ sp = npm "x" (VVersion (v 1 0)) /\ t = Prod) \/ (i = 2 /\ x = "x" /\ sp = npm "x" (VVersion (v 2 0)) /\ t = Prod)).
    { destruct Hd as (n & Hn & H). five i Hn.
      all: apply aget_In in H; [|apply seqb_spec]; cbn [n_reqs In] in H; repeat (destruct H as [H|H]; [injection H as <- <- <-; clear; repeat first [split; [reflexivity | split; [reflexivity | split; reflexivity]] | left; split; [reflexivity | split; [reflexivity | split; reflexivity]] | right]|]); destruct H. }
    assert (Hvis : forall c, resolve_dep (s_g end6) i x = Some c -> visible (s_g end6) i x c).
    { intros c Hc. apply (lookup_visible _ _ _ _ _ _ I).
      - destruct Hcases as [(-> & _)|[(-> & _)|[(-> & _)|(-> & _)]]]; rewrite Esz; lia.
      - apply lookup_resolve; auto; [eapply ginv_parlt; eauto|]. destruct Hcases as [(-> & _)|[(-> & _)|[(-> & _)|(-> & _)]]]; rewrite Esz; lia. }
    assert (Hsh : forall c c', resolve_dep (s_g end6) i x = Some c -> shadowed (s_g end6) i x c' -> c' <> c /\ c' < 5 /\ exists pre suf, node_path (s_g end6) i = pre ++ suf /\ node_path (s_g end6) c' = pre ++ [x]).
    { intros c c' Hc (pre & suf & H1 & H2 & H3). split; [intros ->; apply H3; now apply Hvis|].
      destruct (installed_path _ _ _ _ _ _ I _ _ H1) as [_ E1]. destruct (installed_path _ _ _ _ _ _ I _ _ H2) as [L E2]. rewrite Esz in L. split; [exact L|].
      exists pre, suf. auto. }
    assert (Hfin : forall c, resolve_dep (s_g end6) i x = Some c -> linked (s_g end6) i x sp t c ->
      (forall r, is_a (s_g end6) c r -> satisfies ex_rsat ex_canon r sp = Ok true) ->
      (forall c' r, c' < 5 -> c' <> c -> (exists pre suf, node_path (s_g end6) i = pre ++ suf /\ node_path (s_g end6) c' = pre ++ [x]) ->
         is_a (s_g end6) c' r -> satisfies ex_rsat ex_canon r sp = Ok false) ->
      exists c, linked (s_g end6) i x sp t c /\ visible (s_g end6) i x c
        /\ (forall r, is_a (s_g end6) c r -> satisfies ex_rsat ex_canon r sp = Ok true)
        /\ (forall c' r, shadowed (s_g end6) i x c' -> is_a (s_g end6) c' r -> satisfies ex_rsat ex_canon r sp = Ok false)).
    { intros c H1 H2 H3 H4. exists c. split; [exact H2|]. split; [now apply Hvis|]. split; [exact H3|].
      intros c' r Hc' Ha. destruct (Hsh c c' H1 Hc') as (A & B & C). eauto. }
    destruct Hcases as [(-> & -> & -> & ->)|[(-> & -> & -> & ->)|[(-> & -> & -> & ->)|(-> & -> & -> & ->)]]];
      [apply (Hfin 1) | apply (Hfin 2) | apply (Hfin 3) | apply (Hfin 4)]; try (vm_compute; reflexivity); try (do 2 eexists; split; [vm_compute; reflexivity | split; vm_compute; reflexivity]).
    all: clear -I; clear I.
    all: try (intros r (n & Hn & Hr); vm_compute in Hn; injection Hn as <-; destruct r; cbn [n_pkg pk_resolved source] in Hr; try discriminate Hr; injection Hr as <- <- <-; vm_compute; reflexivity).
    all: intros c' r Hlt Hne (pre & suf & E1 & E2) (n & Hn & Hr).
    all: destruct c' as [|[|[|[|[|c']]]]]; try (exfalso; clear - Hlt Hne; lia); vm_compute in E1, E2; destruct pre as [|p1 [|p2 [|p3 pre]]]; cbn [app] in E1, E2; try discriminate E1; try discriminate E2.
    all: vm_compute in Hn; injection Hn as <-; destruct r; cbn [n_pkg pk_resolved source] in Hr; try discriminate Hr; injection Hr as <- <- <-; try (vm_compute; reflexivity); exfalso; congruence.
Qed.

(** C06 is false in general: the order of responses can nest a copy that the lockfile makes redundant. The project wants
    a and x@1.0.0, a wants x@^1.0.0; x@1.1.0 arrives (for a) before x@1.0.0 does. *)
Definition reg6 : registry := [("a", [(v 1 0, man [("x", "^1.0.0")])]); ("x", [(v 1 1, no_deps); (v 1 0, no_deps)])].
Definition root6 := mk_root (man [("a", "1.0.0"); ("x", "1.0.0")]).
Definition sched6r : list action :=
  [APop; AChunk 2 [rs6 reg6 (npm "a" (VVersion (v 1 0)))]; APop;
   AChunk 1 [rs6 reg6 (npm "x" (VRange "^1.0.0")); rs6 reg6 (npm "x" (VVersion (v 1 0)))]; APop; APop].
Definition end6r : st := get (run6 None (init root6) sched6r) root6.
Definition end6l : st := get (run6 (Some (back6 (s_g end6r))) (init root6) [APop; APop; APop]) root6.
Example tree6r : tree_of (s_g end6r) = [([], v 0 0); (["a"], v 1 0); (["a"; "x"], v 1 1); (["x"], v 1 0)]
  /\ tree_of (s_g end6l) = [([], v 0 0); (["a"], v 1 0); (["x"], v 1 0)].
Proof. split; vm_compute; reflexivity. Qed.
Theorem C06_refuted : exists reg root m s lf lf' s' path r,
  new_node ex_parse "root" root_pkg m true = Ok root /\ reach6 reg None root s /\ finished s = true
  /\ registry_tree vshow6 vparse6 Some parse_spec6 Some (s_g s)
  /\ (forall i x sp t, declares (s_g s) i x sp t -> ex_parse x (requested6 sp) = Ok sp)
  /\ to_lockfile requested6 git6 (s_g s) = Ok lf /\ from_kdl vparse6 Some (to_kdl vshow6 lf) = Ok lf' /\ keyed_by_path lf'
  /\ reach6 reg (Some lf') root s' /\ finished s' = true
  /\ tree_src (s_g s) path r /\ (forall r', ~ tree_src (s_g s') path r').
Proof.
  exists reg6, root6, (man [("a", "1.0.0"); ("x", "1.0.0")]), end6r.
  exists (match to_lockfile requested6 git6 (s_g end6r) with Ok lf => lf | _ => back6 (s_g end6r) end), (back6 (s_g end6r)), end6l, ["a"; "x"].
  exists (RNpm "x" (v 1 1) "https://r/x-1.1.0" (Some "sha512-x")).
  assert (R : reach6 reg6 (Some (back6 (s_g end6r))) root6 end6l).
  { apply run6_reach with (l := [APop; APop; APop]); [repeat constructor | vm_compute; reflexivity]. }
  split; [reflexivity|]. split; [apply run6_reach with (l := sched6r); [repeat constructor | vm_compute; reflexivity]|].
  split; [vm_compute; reflexivity|].
  split; [|split; [|split; [|split; [|split; [|split; [exact R|split; [vm_compute; reflexivity|split]]]]]]].
  - clear R. intros i n Hn Hi. destruct i as [|[|[|[|i]]]]; [easy | vm_compute in Hn; injection Hn as <- .. | vm_compute in Hn; destruct i; discriminate Hn].
    all: do 4 eexists; split; [reflexivity|]; split; [left; split; [vm_compute; reflexivity | vm_compute; discriminate]|].
    all: split; [vm_compute; reflexivity|]; split; [intros s E; reflexivity|]; split; [vm_compute; reflexivity|]; split; [reflexivity|].
    all: do 3 eexists; vm_compute; reflexivity.
  - clear R. intros i x sp t (n & Hn & H). destruct i as [|[|[|[|i]]]]; [vm_compute in Hn; injection Hn as <- .. | vm_compute in Hn; destruct i; discriminate Hn].
    all: apply aget_In in H; [|apply seqb_spec]; cbn [n_reqs In] in H; repeat (destruct H as [H|H]; [injection H as <- <- <-; vm_compute; reflexivity|]); destruct H.
  - vm_compute. reflexivity.
  - vm_compute. reflexivity.
  - clear R. split.
    + match goal with |- NoDup ?l => replace l with ["a"; "a/node_modules/x"; "x"] by (vm_compute; reflexivity) end.
      repeat constructor; cbn; intuition discriminate.
    + intros k ln Hin.
      assert (E : map (fun e => (fst e, ufold (fst e), path_key (entry_path (snd e)), entry_path (snd e))) (lf_packages (back6 (s_g end6r)))
        = [("a", "a", "a", ["a"]); ("a/node_modules/x", "a/node_modules/x", "a/node_modules/x", ["a"; "x"]); ("x", "x", "x", ["x"])]) by (vm_compute; reflexivity).
      apply (in_map (fun e => (fst e, ufold (fst e), path_key (entry_path (snd e)), entry_path (snd e)))) in Hin. rewrite E in Hin. cbn [fst snd] in Hin.
      destruct Hin as [H|[H|[H|[]]]]; injection H as _ <- <- <-; (split; [reflexivity|]); (split; [discriminate|]);
        repeat apply Forall_cons; try apply Forall_nil; left; (split; [vm_compute; reflexivity | vm_compute; discriminate]).
  - exists (mkPkg "x" (npm "x" (VRange "^1.0.0")) (RNpm "x" (v 1 1) "https://r/x-1.1.0" (Some "sha512-x"))). split; [|reflexivity].
    exists 2. eexists. split; [|split; [vm_compute; reflexivity | reflexivity]].
    change ["a"; "x"] with (([] ++ ["a"]) ++ ["x"]). econstructor; [econstructor; [constructor | vm_compute; reflexivity] | vm_compute; reflexivity].
  - intros r' (p & (i & n & Hi & Hn & _) & _).
    assert (Hnew : new_node ex_parse "root" root_pkg (man [("a", "1.0.0"); ("x", "1.0.0")]) true = Ok root6) by reflexivity.
    pose proof (reach_inv _ _ _ _ _ _ _ _ _ _ _ _ _ _ Hnew R) as [I _ _ _ _].
    destruct (installed_path _ _ _ _ _ _ I _ _ Hi) as [Hlt E]. clear - Hlt E.
    assert (Esz : size (s_g end6l) = 3) by (vm_compute; reflexivity). rewrite Esz in Hlt. clear Esz.
    destruct i as [|[|[|i]]]; [vm_compute in E; discriminate E .. | exfalso; clear - Hlt; lia].
Qed.
Print Assumptions C06_refuted.
