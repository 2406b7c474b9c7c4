(** * Property C05 (the tree does not depend on the order of the registry's responses), name by name, in registries with version conflicts.
    Vocabulary: [asked], [answers], [needs] (ResolverCycles); [steady], [certain] (ResolverTop): the requests for the name are all answered with one
    package that satisfies them all, and the project needs the name through such names; [tree_has], [tree_res] (ResolverSpec, ResolverTerm). *)
From Verif Require Import Base Types ResolverModel ResolverProofs ResolverRun ResolverSpec ResolverThms ResolverSteps ResolverTerm ResolverFacts ResolverExamples
  ResolverCycles ResolverSeen ResolverTop PropsCycles PropsSeen.
Open Scope string_scope.
Open Scope list_scope.

Section World.
  Variable rsat : range -> version -> bool.
  Variable canon : string -> option string.
  Variable parse_dep : string -> string -> res err pspec.
  Variable lnode : Type.
  Variable lnode_path : lnode -> list string.
  Variable lnode_manifest : lnode -> manifest.
  Variable to_package : lnode -> res err (option package).
  Variable deliver : pspec -> outcome -> Prop.
  Notation asked := (asked rsat canon parse_dep lnode lnode_manifest to_package deliver None).
  Notation answers := (answers rsat canon lnode lnode_manifest to_package deliver None).
  Notation reach := (reach rsat canon parse_dep lnode lnode_path lnode_manifest to_package deliver None).
  Notation steady := (steady rsat canon parse_dep lnode lnode_manifest to_package deliver).
  Notation certain := (certain rsat canon parse_dep lnode lnode_manifest to_package deliver).

  (** C05 for one name: a name [x] without conflicts that the project needs through names without conflicts is installed in the same
      places, as the same package, by every two finished runs, whatever conflicts the other names have.
      Missing: names with conflicts, for which it is false (C05_refuted). *)
  Theorem C05_name_partial : forall root pkg m name x, new_node parse_dep name pkg m true = Ok root -> certain root x -> steady root x ->
    forall s s', reach root s -> reach root s' -> finished s = true -> finished s' = true ->
    forall path r, tree_res (s_g s) (path ++ [x]) r <-> tree_res (s_g s') (path ++ [x]) r.
  Proof.
    intros root pkg m name x Hroot Hc Hst s s' Hs Hs' Hf Hf' path r. split.
    - exact (top_same rsat canon parse_dep lnode lnode_path lnode_manifest to_package deliver root pkg m name Hroot s s' Hs Hs' Hf Hf' x Hc Hst path r).
    - exact (top_same rsat canon parse_dep lnode lnode_path lnode_manifest to_package deliver root pkg m name Hroot s' s Hs' Hs Hf' Hf x Hc Hst path r).
  Qed.

  (** A name whose possible answers satisfy all its possible requests is never nested: at every moment of every run, each package installed
      under that name is directly in the project's node_modules. *)
  Theorem C05_name_top_partial : forall root pkg m name x, new_node parse_dep name pkg m true = Ok root ->
    (forall sp sp' p m', asked root x sp -> asked root x sp' -> answers x sp p m' -> satisfies rsat canon (pk_resolved p) sp' = Ok true) ->
    forall s, reach root s -> forall path p, tree_has (s_g s) (path ++ [x]) p -> path = [].
  Proof.
    intros root pkg m name x Hroot Hx s Hs path p (i & n & Hi & _).
    exact (proj1 (top_paths rsat canon parse_dep lnode lnode_path lnode_manifest to_package deliver root pkg m name Hroot x Hx s Hs i path Hi)).
  Qed.
End World.

(** Non-vacuity: [reg9c] has two conflicting versions of c; the project needs b through a, neither has conflicts, and b is installed. *)
Notation steady9 := (steady ex_rsat ex_canon ex_parse unit (fun _ => no_deps) (fun _ => Ok None) (ex_deliver reg9c) root9c).
Notation certain9 := (certain ex_rsat ex_canon ex_parse unit (fun _ => no_deps) (fun _ => Ok None) (ex_deliver reg9c) root9c).
Lemma steady9_one x sp0 : (forall sp, asked9 x sp -> sp = sp0) ->
  (forall p m, answer reg9c sp0 = Ok (p, m) -> satisfies ex_rsat ex_canon (pk_resolved p) sp0 = Ok true) -> steady9 x.
Proof.
  intros H1 H2. split.
  - intros sp sp' p m' H H' Ha. apply answers9_is in Ha. rewrite (H1 _ H) in Ha. rewrite (H1 _ H'). exact (H2 _ _ Ha).
  - intros sp sp' p p' m1 m1' H H' Ha Ha'. apply answers9_is in Ha, Ha'. rewrite (H1 _ H) in Ha. rewrite (H1 _ H') in Ha'.
    rewrite Ha in Ha'. injection Ha' as <- <-. auto.
Qed.
Lemma steady9_a : steady9 "a".
Proof.
  apply steady9_one with (sp0 := npm "a" (VVersion (v 1 0))).
  - intros sp H. apply asked9_is in H. destruct H as [[_ ->]|[[E _]|[E _]]]; [reflexivity|discriminate E|discriminate E].
  - intros p m H. vm_compute in H. injection H as <- _. reflexivity.
Qed.
Lemma steady9_b : steady9 "b".
Proof.
  apply steady9_one with (sp0 := npm "b" (VVersion (v 1 0))).
  - intros sp H. apply asked9_is in H. destruct H as [[E _]|[[_ ->]|[E _]]]; [discriminate E|reflexivity|discriminate E].
  - intros p m H. vm_compute in H. injection H as <- _. reflexivity.
Qed.
Lemma certain9_b : certain9 "b".
Proof.
  assert (Aa : asked9 "a" (npm "a" (VVersion (v 1 0)))) by (eapply asked_root; reflexivity).
  eapply certain_dep with (x := "a"); [eapply certain_root; reflexivity|exact steady9_a|exact Aa|left; reflexivity|eexists; eexists; split; reflexivity].
Qed.
Example C05_name_nonvacuous : certain9 "b" /\ steady9 "b" /\ ~ steady9 "c" /\ finished end9c = true
  /\ (exists p, tree_has (s_g end9c) ["b"] p) /\ (exists p, tree_has (s_g end9c) ["b"; "c"] p)
  /\ forall s, ex_reach reg9c root9c s -> finished s = true -> exists r, tree_res (s_g s) ["b"] r.
Proof.
  split; [exact certain9_b|]. split; [exact steady9_b|]. split.
  { intros [H _]. destruct C02_name_nonvacuous as (_ & _ & Hc & _). exact (Hc H). }
  assert (Hb : installed_at (s_g end9c) 2 ["b"]).
  { change ["b"] with ([] ++ ["b"]). apply at_child with (p := 0); [constructor|vm_compute; reflexivity]. }
  split; [vm_compute; reflexivity|].
  assert (Tb : exists p, tree_has (s_g end9c) ["b"] p).
  { eexists. exists 2. eexists. split; [exact Hb|]. split; [vm_compute; reflexivity|reflexivity]. }
  split; [exact Tb|]. split.
  - eexists. exists 4. eexists. split; [|split; [vm_compute; reflexivity|reflexivity]].
    change ["b"; "c"] with (["b"] ++ ["c"]). apply at_child with (p := 2); [exact Hb|vm_compute; reflexivity].
  - intros s Hs Hf. destruct Tb as [p Hp]. exists (pk_resolved p).
    apply (C05_name_partial ex_rsat ex_canon ex_parse unit _ _ _ (ex_deliver reg9c) _ _ _ _ "b" root9c_new certain9_b steady9_b s end9c Hs end9c_reach Hf eq_refl []).
    exists p. auto.
Qed.

Print Assumptions C05_name_partial.
Print Assumptions C05_name_top_partial.
