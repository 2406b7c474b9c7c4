(** * Property C04 (termination), for every registry in which only names on no dependency cycle have conflicting versions, with or
    without a lockfile; and a registry of four exact versions for which it is false.
    Vocabulary (ResolverCycles): [asked x sp]: a request for name [x] with spec [sp] can come up; [answers x sp p m]: package [p] with
    manifest [m] may answer it (from the registry or the lockfile); [leads_to x y]: some chain of declared dependencies goes from an
    installable version of [x] to the name [y]. [steps root n s] (ResolverSteps): some schedule is in state [s] after [n] steps. *)
From Verif Require Import Base Types ResolverModel ResolverProofs ResolverRun ResolverSpec ResolverThms ResolverSteps ResolverTerm ResolverFacts ResolverExamples
  ResolverCycles ResolverLoop.
From Coq Require Import Relation_Operators.
Open Scope string_scope.
Open Scope list_scope.

Section World.
  Variable rsat : range -> version -> bool.
  Variable canon : string -> option string.
  Variable parse_dep : string -> string -> res err pspec.
  Variable lnode : Type.
  Variable lnode_path : lnode -> list string.
  Variable lnode_manifest : lnode -> manifest.
  Variable to_package : lnode -> res err (option package).
  Variable deliver : pspec -> outcome -> Prop.
  Variable lock : option (lockpkgs lnode).
  Notation asked := (asked rsat canon parse_dep lnode lnode_manifest to_package deliver lock).
  Notation answers := (answers rsat canon lnode lnode_manifest to_package deliver lock).
  Notation leads_to := (leads_to rsat canon parse_dep lnode lnode_manifest to_package deliver lock).
  Notation steps := (steps rsat canon parse_dep lnode lnode_path lnode_manifest to_package deliver lock).

  (** C04. If finitely many names can be asked for, and for each name that leads back to itself whatever answers one request satisfies
      every request, then every schedule stops after a fixed number of steps. (By C03_progress a run that has stopped is finished or
      has failed.) This covers registries without cycles and registries without conflicts, and lockfiles.
      Missing: conflicting versions on a cycle, for which it is false: C04_refuted_versions. *)
  Theorem C04_cycles_partial : forall root pkg m name U, new_node parse_dep name pkg m true = Ok root ->
    (forall x sp, asked root x sp -> In x U) ->
    (forall x sp sp' p m', leads_to root x x -> asked root x sp -> asked root x sp' -> answers x sp p m' ->
       satisfies rsat canon (pk_resolved p) sp' = Ok true) ->
    exists N, forall n s, steps root n s -> n <= N.
  Proof.
    intros root pkg m name U Hroot Hfin Hcompat. eexists. intros n s Hs.
    exact (cyc_bound rsat canon parse_dep lnode lnode_path lnode_manifest to_package deliver lock root pkg m name Hroot Hcompat U Hfin n s Hs).
  Qed.
End World.

(** C04 is false although every dependency is an exact version: a 1.0.0 -> b 1.0.0 -> a 2.0.0 -> b 2.0.0 -> a 1.0.0. No schedule ever
    finishes, and there are runs of every length. *)
Theorem C04_refuted_versions : exists reg root m,
  reg = [("a", [(v 1 0, man [("b", "1.0.0")]); (v 2 0, man [("b", "2.0.0")])]);
         ("b", [(v 1 0, man [("a", "2.0.0")]); (v 2 0, man [("a", "1.0.0")])])]
  /\ new_node ex_parse "root"%string root_pkg m true = Ok root /\ m = man [("a", "1.0.0")]
  /\ (forall s, ex_reach reg root s -> finished s = false) /\ (forall n, exists s, ex_steps reg root n s).
Proof. exists reg8, root8, (man [("a", "1.0.0")]). exact (conj eq_refl (conj root8_new (conj eq_refl (conj reg8_never reg8_runs_on)))). Qed.

(** Non-vacuity: a and b depend on each other, and on conflicting versions of c *)
Definition reg9c : registry :=
  [("a", [(v 1 0, man [("b", "1.0.0"); ("c", "1.0.0")])]); ("b", [(v 1 0, man [("a", "1.0.0"); ("c", "2.0.0")])]); ("c", [(v 2 0, no_deps); (v 1 0, no_deps)])].
Definition root9c := mk_root (man [("a", "1.0.0")]).
Lemma root9c_new : new_node ex_parse "root" root_pkg (man [("a", "1.0.0")]) true = Ok root9c.
Proof. reflexivity. Qed.
Notation answers9 := (answers ex_rsat ex_canon unit (fun _ => no_deps) (fun _ => Ok None) (ex_deliver reg9c) None).
Notation asked9 := (asked ex_rsat ex_canon ex_parse unit (fun _ => no_deps) (fun _ => Ok None) (ex_deliver reg9c) None root9c).
Notation leads9 := (leads ex_rsat ex_canon ex_parse unit (fun _ => no_deps) (fun _ => Ok None) (ex_deliver reg9c) None root9c).
Definition asks9 (x : string) (sp : pspec) : Prop :=
  (x = "a" /\ sp = npm "a" (VVersion (v 1 0))) \/ (x = "b" /\ sp = npm "b" (VVersion (v 1 0)))
  \/ (x = "c" /\ (sp = npm "c" (VVersion (v 1 0)) \/ sp = npm "c" (VVersion (v 2 0)))).
Lemma answers9_is x sp p m : answers9 x sp p m -> answer reg9c sp = Ok (p, m).
Proof. intros [H|(lf & ? & ? & E & _)]; [symmetry; exact H|discriminate]. Qed.
Lemma needs9 x sp p m y sp' : asks9 x sp -> answer reg9c sp = Ok (p, m) -> needs ex_parse x p m y sp' -> x <> "c" /\ asks9 y sp'.
Proof.
  intros [[-> ->]|[[-> ->]|[-> [->| ->]]]] Ha (n & t & Hn & Hy); vm_compute in Ha; injection Ha as <- <-; vm_compute in Hn; injection Hn as <-; cbn [n_reqs aget] in Hy;
    repeat match type of Hy with context [String.eqb y ?k] => destruct (String.eqb_spec y k) as [->|] end; try discriminate; injection Hy as <- _;
    (split; [discriminate|]); unfold asks9, npm, v; tauto.
Qed.
Lemma asked9_is x sp : asked9 x sp -> asks9 x sp.
Proof.
  induction 1 as [x sp t H|x sp p m' y sp' _ IH Ha Hn].
  - change (n_reqs root9c) with [("a", (npm "a" (VVersion (v 1 0)), Prod))] in H. cbn [aget] in H.
    destruct (String.eqb_spec x "a") as [->|]; [|discriminate]. injection H as <- _. left. auto.
  - apply answers9_is in Ha. apply (needs9 _ _ _ _ _ _ IH Ha Hn).
Qed.
Example C04_cycles_nonvacuous :
  leads9 "a" "b" /\ leads9 "b" "a" /\ (exists N, forall n s, ex_steps reg9c root9c n s -> n <= N).
Proof.
  assert (Aa : asked9 "a" (npm "a" (VVersion (v 1 0)))) by (eapply asked_root; reflexivity).
  assert (Na : needs ex_parse "a" (mkPkg "a" (npm "a" (VVersion (v 1 0))) (RNpm "a" (v 1 0) "a" None)) (man [("b", "1.0.0"); ("c", "1.0.0")]) "b" (npm "b" (VVersion (v 1 0)))).
  { eexists. eexists. split; reflexivity. }
  assert (Ab : asked9 "b" (npm "b" (VVersion (v 1 0)))) by (eapply asked_dep; [exact Aa|left; reflexivity|exact Na]).
  split; [exists (npm "a" (VVersion (v 1 0))); eexists; eexists; eexists; split; [exact Aa|split; [left; reflexivity|exact Na]]|].
  split; [exists (npm "b" (VVersion (v 1 0))); eexists; eexists; exists (npm "a" (VVersion (v 1 0))); split; [exact Ab|split; [left; reflexivity|eexists; eexists; split; reflexivity]]|].
  apply (C04_cycles_partial ex_rsat ex_canon ex_parse unit (fun _ => []) (fun _ => no_deps) (fun _ => Ok None) (ex_deliver reg9c) None root9c _ _ _ ["a"; "b"; "c"] root9c_new).
  - intros x sp H. destruct (asked9_is _ _ H) as [[-> _]|[[-> _]|[-> _]]]; cbn; auto.
  - intros x sp sp' p m' Hc H H' Ha. apply answers9_is in Ha. apply asked9_is in H. apply asked9_is in H'.
    assert (Hx : x <> "c").
    { assert (G : forall a b, leads_to ex_rsat ex_canon ex_parse unit (fun _ => no_deps) (fun _ => Ok None) (ex_deliver reg9c) None root9c a b -> a <> "c").
      { intros a b Hab. induction Hab as [a b (s1 & p1 & m1 & s2 & A & B & C)|]; [|auto]. apply asked9_is in A. apply answers9_is in B.
        apply (needs9 _ _ _ _ _ _ A B C). }
      eapply G; eauto. }
    destruct H as [[-> ->]|[[-> ->]|[-> _]]]; [| |congruence]; vm_compute in Ha; injection Ha as <- _;
      destruct H' as [[E ->]|[[E ->]|[E _]]]; try discriminate E; reflexivity.
Qed.

Print Assumptions C04_cycles_partial.
Print Assumptions C04_refuted_versions.
