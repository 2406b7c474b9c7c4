(** * Property C42: from a path on disk to the package that owns it.
    [disk names]: the directory node_modules/x1/node_modules/x2/... of the package installed at [names] (ResolverSpec,
    [installed_at]); [node_at_path g path]: the package orogene reports for a path, given by its components. *)
From Verif Require Import Base Types ResolverModel ResolverProofs ResolverRun ResolverSpec ResolverThms ResolverSteps ResolverFacts
  LockfileModel LockfileGraph PathLookup ResolverExamples.
Open Scope string_scope.
Open Scope list_scope.

Section World.
  Variable rsat : range -> version -> bool.
  Variable canon : string -> option string.
  Variable parse_dep : string -> string -> res err pspec.
  Variable lnode : Type.
  Variable lnode_path : lnode -> list string.
  Variable lnode_manifest : lnode -> manifest.
  Variable to_package : lnode -> res err (option package).
  Variable deliver : pspec -> outcome -> Prop.
  Variable lock : option (lockpkgs lnode).
  Notation reach := (reach rsat canon parse_dep lnode lnode_path lnode_manifest to_package deliver lock).
  Variables (root : node) (pkg : package) (m : manifest) (name : string).
  Hypothesis Hroot : new_node parse_dep name pkg m true = Ok root.

  Lemma root_no_child : forall s, reach root s -> forall i x, child_of (s_g s) i x <> Some 0.
  Proof.
    intros s R i x H. pose proof (inv rsat canon parse_dep lnode lnode_path lnode_manifest to_package deliver lock root pkg m name Hroot s R) as [I].
    destruct (gi_child _ _ _ _ _ _ I _ _ _ H) as (_ & Hp & _). destruct (gi_root _ _ _ _ _ _ I) as [_ Hr]. congruence.
  Qed.

  (** C42: every path inside a package's own directory (the directory itself, its files, but not what is in its
      node_modules) is reported as that package, in any tree whose packages have names npm accepts. *)
  Theorem C42_inside_partial : forall s, reach root s -> good_graph (s_g s) -> forall i names rest,
    installed_at (s_g s) i names -> i <> 0 ->
    (forall c r, rest = c :: r -> ueqb c "node_modules" = false /\ c <> "/" /\ c <> "\") ->
    node_at_path (s_g s) (disk names ++ rest) = Some i.
  Proof. exact (fun s R Hg => inside (s_g s) Hg (root_no_child s R)). Qed.
  (** Paths through directories of unscoped packages, installed or not: the deepest package that is installed, or nothing
      if the first is not. Missing: scoped packages that are not installed, and paths that are not a chain of package
      directories (C42_refuted). *)
  Theorem C42_deepest_partial : forall s, reach root s -> forall names rest, Forall plain names ->
    (forall c r, rest = c :: r -> ueqb c "node_modules" = false /\ c <> "/" /\ c <> "\") -> names <> [] ->
    exists pre suf i, names = pre ++ suf /\ installed_at (s_g s) i pre /\ (forall x t, suf = x :: t -> child_of (s_g s) i x = None)
      /\ node_at_path (s_g s) (disk names ++ rest) = match i with 0 => None | _ => Some i end.
  Proof. exact (fun s R => deepest (s_g s)). Qed.
End World.

(** ** concrete: a tree with packages a, b, x and another x inside b *)
Example C42_tree : good_graph (s_g end5a) /\ installed_at (s_g end5a) 1 ["a"].
Proof.
  split.
  - apply good_graphb_spec. vm_compute. reflexivity.
  - apply (at_child _ 0 []); [constructor | vm_compute; reflexivity].
Qed.
Lemma installed_head g i x names : installed_at g i (x :: names) -> exists c, child_of g 0 x = Some c.
Proof.
  intros H. remember (x :: names) as l eqn:E. revert x names E. induction H as [|p path y c H IH Hc]; intros x names E; [discriminate|].
  destruct path as [|z path]; [|injection E as -> _; eauto]. injection E as -> _. inversion H; subst; [eauto|]. destruct path; discriminate.
Qed.
Example C42_ex2 : node_at_path (s_g end5a) ["node_modules"; "b"; "node_modules"; "x"; "index.js"] = Some 4
  /\ node_at_path (s_g end5a) ["node_modules"; "b"; "node_modules"; "zzz"; "index.js"] = Some 2
  /\ node_at_path (s_g end5a) ["node_modules"; "zzz"; "index.js"] = None.
Proof. vm_compute. auto. Qed.
Example C42_ex1 : node_at_path (s_g end5a) ["node_modules"; "a"; "lib"; "index.js"] = Some 1.
Proof. vm_compute. reflexivity. Qed.

(** the full property fails: a file of a package that is not installed is reported as another package *)
Theorem C42_refuted : exists s, ex_reach reg5 root5 s /\ finished s = true /\ good_graph (s_g s)
  /\ (forall i names, ~ installed_at (s_g s) i ("@s/y" :: names))
  /\ installed_at (s_g s) 1 ["a"]
  /\ node_at_path (s_g s) (disk ["@s/y"; "a"] ++ ["index.js"]) = Some 1
  /\ node_at_path (s_g s) ["node_modules"; "node_modules"; "a"] = Some 1.
Proof.
  exists end5a. split; [exact end5a_reach|]. split; [exact end5a_finished|]. split; [apply C42_tree|]. split.
  - intros i names H. destruct (installed_head _ _ _ _ H) as [c Hc]. vm_compute in Hc. discriminate.
  - split; [apply C42_tree|]. split; vm_compute; reflexivity.
Qed.

Print Assumptions C42_inside_partial.
Print Assumptions C42_deepest_partial.
Print Assumptions C42_refuted.
