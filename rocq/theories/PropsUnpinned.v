(** * Property C06 (a lockfile pins the tree): what no lockfile pins. *)
From Verif Require Import Base Types Kdl ResolverModel ResolverProofs ResolverRun ResolverSpec ResolverThms ResolverSteps ResolverTerm
  ResolverFacts ResolverDecl ResolverExamples LockfileModel LockfileSpec LockfileProofs LockfileGraph LockfileFacts LockfileReplay LockfileReplayRun LockfileView PropsReplay.
Open Scope string_scope.
Open Scope list_scope.

(** a request for a git repository, a dist-tag, or no version at all *)
Definition floating (sp : pspec) : Prop :=
  match target sp with SGit _ => True | SNpm _ _ (Some (VTag _)) => True | SNpm _ _ None => True | _ => False end.

Section World.
  Variable rsat : range -> version -> bool.
  Variable canon : string -> option string.
  Variable parse_dep : string -> string -> res err pspec.
  Variable lnode : Type.
  Variable lnode_path : lnode -> list string.
  Variable lnode_manifest : lnode -> manifest.
  Variable to_package : lnode -> res err (option package).
  Variable deliver : pspec -> outcome -> Prop.
  Variable lock : option (lockpkgs lnode).
  Notation reach := (reach rsat canon parse_dep lnode lnode_path lnode_manifest to_package deliver lock).

  Lemma floating_unsat sp r : floating sp -> satisfies rsat canon r sp <> Ok true.
  Proof.
    unfold floating, satisfies. destruct r, (target sp) as [d|a b|sc n q|g]; try contradiction; try discriminate.
    destruct q as [[vv|rr|tt]|]; try contradiction; discriminate.
  Qed.

  (** C06 is false of git dependencies, dist-tags and dependencies without a version, for every lockfile and every project: what such a
      dependency is linked to is always what the network answered during this run, whatever the lockfile says about it. *)
  Theorem C06_floating : forall root pkg m name, new_node parse_dep name pkg m true = Ok root ->
    forall s, reach root s -> finished s = true -> forall i x sp t, declares (s_g s) i x sp t -> floating sp ->
    exists c n m', linked (s_g s) i x sp t c /\ getn (s_g s) c = Some n /\ deliver sp (Ok (n_pkg n, m')).
  Proof.
    intros root pkg m name Hroot s Hs Hf i x sp t Hd Hfl.
    destruct (complete _ _ _ _ _ _ _ _ _ _ _ _ _ Hroot s Hs Hf _ _ _ _ Hd) as (c & Hl & n & Hn & [H|[m' H]]).
    - destruct (floating_unsat _ _ Hfl H).
    - exists c, n, m'. auto.
  Qed.
End World.

(** A concrete case: the project wants x@latest, which is 1.0.0; the lockfile is written; then 1.1.0 is published. The next run, given that
    lockfile, installs 1.1.0. *)
Definition reg6t : registry := [("x", [(v 1 0, no_deps)])].
Definition reg6t' : registry := [("x", [(v 1 1, no_deps); (v 1 0, no_deps)])].
Definition root6t := mk_root (man [("x", "latest")]).
Lemma root6t_new : new_node ex_parse "root" root_pkg (man [("x", "latest")]) true = Ok root6t.
Proof. reflexivity. Qed.
Definition sched6t (reg : registry) : list action := [APop; AChunk 1 [rs6 reg (npm "x" (VTag "latest"))]; APop].
Definition end6t : st := get (run6 None (init root6t) (sched6t reg6t)) root6t.
Definition end6u : st := get (run6 (Some (back6 (s_g end6t))) (init root6t) (sched6t reg6t')) root6t.
Theorem C06_refuted_tag : exists reg reg' root m s lf lf' s',
  new_node ex_parse "root" root_pkg m true = Ok root /\ reach6 reg None root s /\ finished s = true
  /\ to_lockfile requested6 git6 (s_g s) = Ok lf /\ from_kdl vparse6 Some (to_kdl vshow6 lf) = Ok lf' /\ List.length (lf_packages lf') = 1
  /\ reach6 reg' (Some lf') root s' /\ finished s' = true
  /\ tree_of (s_g s) = [([], v 0 0); (["x"], v 1 0)] /\ tree_of (s_g s') = [([], v 0 0); (["x"], v 1 1)].
Proof.
  exists reg6t, reg6t', root6t, (man [("x", "latest")]), end6t.
  exists (match to_lockfile requested6 git6 (s_g end6t) with Ok lf => lf | _ => back6 (s_g end6t) end), (back6 (s_g end6t)), end6u.
  split; [reflexivity|]. split; [apply run6_reach with (l := sched6t reg6t); [repeat constructor | vm_compute; reflexivity]|].
  split; [vm_compute; reflexivity|]. split; [vm_compute; reflexivity|]. split; [vm_compute; reflexivity|]. split; [vm_compute; reflexivity|].
  split; [apply run6_reach with (l := sched6t reg6t'); [repeat constructor | vm_compute; reflexivity]|].
  split; [vm_compute; reflexivity|]. split; vm_compute; reflexivity.
Qed.
(** Non-vacuity of C06_floating: that project, its second run *)
Example C06_floating_nonvacuous : floating (npm "x" (VTag "latest")) /\ finished end6u = true /\ declares (s_g end6u) 0 "x" (npm "x" (VTag "latest")) Prod
  /\ floating (SAlias "g" (SGit (GUrl "https://h/r.git" (Some "main") None))).
Proof. split; [exact I|]. split; [vm_compute; reflexivity|]. split; [eexists; split; vm_compute; reflexivity|exact I]. Qed.

Print Assumptions C06_floating.
Print Assumptions C06_refuted_tag.
