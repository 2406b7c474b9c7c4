(** * Property C05, the whole claim for registries without version conflicts: whatever the order of the registry's responses,
    the same packages at the same paths, the same dependencies and links ([same_tree], LockfileReplay) and the same lockfile
    text. Vocabulary: [wanted parse_dep deliver root x sp] (ResolverTerm): a request for directory [x] with spec [sp] can come up;
    [to_lockfile], [to_kdl] (LockfileModel): the lockfile of a tree and the document written to package-lock.kdl. *)
From Verif Require Import Base Types Kdl ResolverModel ResolverProofs ResolverRun ResolverSpec ResolverThms ResolverTerm ResolverFacts
  ResolverExamples LockfileModel LockfileSpec LockfileProofs LockfileGraph LockfileFacts LockfileReplay LockfileText FlatSame.
Open Scope string_scope.
Open Scope list_scope.

Section World.
  Variable rsat : range -> version -> bool.
  Variable canon : string -> option string.
  Variable parse_dep : string -> string -> res err pspec.
  Variable lnodeT : Type.
  Variable lpath : lnodeT -> list string.
  Variable lman : lnodeT -> manifest.
  Variable to_pkg : lnodeT -> res err (option package).
  Variable deliver : pspec -> outcome -> Prop.
  Variable requested : pspec -> string.
  Variable gitshow : gitinfo -> string.
  Variable vshow : version -> string.
  Notation reach_nolock := (reach rsat canon parse_dep lnodeT lpath lman to_pkg deliver None).
  Variables (root : node) (pkg : package) (m : manifest) (name : string).
  Hypothesis Hroot : new_node parse_dep name pkg m true = Ok root.
  Notation wanted := (wanted parse_dep deliver root).

  (** Missing: registries with conflicts, for which it is false (C05_refuted). *)
  Theorem C05_text_partial :
    (forall x sp sp' p m', wanted x sp -> wanted x sp' -> deliver sp (Ok (p, m')) -> satisfies rsat canon (pk_resolved p) sp' = Ok true) ->
    (forall x sp sp' p p' m1 m1', wanted x sp -> wanted x sp' -> deliver sp (Ok (p, m1)) -> deliver sp' (Ok (p', m1')) ->
       pk_resolved p = pk_resolved p' /\ m1 = m1') ->
    (forall x sp, wanted x sp -> valid_name x) ->
    forall s s', reach_nolock root s -> reach_nolock root s' -> finished s = true -> finished s' = true ->
    same_tree (s_g s) (s_g s')
    /\ exists lf lf', to_lockfile requested gitshow (s_g s) = Ok lf /\ to_lockfile requested gitshow (s_g s') = Ok lf'
         /\ to_kdl vshow lf = to_kdl vshow lf'.
  Proof.
    intros H1 H2 Hval s s' Hs Hs' Hf Hf'.
    pose proof (flat_same rsat canon parse_dep lnodeT lpath lman to_pkg deliver root pkg m name Hroot H1 H2 s s' Hs Hs' Hf Hf') as T.
    split; [exact T|].
    apply (same_tree_text rsat canon parse_dep lnodeT lpath lman to_pkg requested gitshow vshow root root pkg pkg m m name name Hroot Hroot deliver deliver None None s s' Hs Hs' T).
    intros i Hi. destruct (flat_reach rsat canon parse_dep deliver lnodeT lpath lman to_pkg root pkg m name Hroot H1 s Hs) as (F & _).
    destruct (F i Hi) as (_ & sp & _ & _ & _ & W & _). eauto.
  Qed.
End World.
Print Assumptions C05_text_partial.

(** it applies: a and x, both wanted twice, in one order *)
Lemma valid6 : forall x sp, wanted ex_parse (ex_deliver reg6) root6 x sp -> valid_name x.
Proof. intros x sp W. destruct (finite6 x sp W) as [<-|[<-|[]]]; left; (split; [vm_compute; reflexivity | vm_compute; discriminate]). Qed.
Example C05_text_nonvacuous : forall s, ex_reach reg6 root6 s -> finished s = true ->
  same_tree (s_g s) (s_g end6) /\ exists lf lf', to_lockfile (fun _ => "") (fun _ => "") (s_g s) = Ok lf
    /\ to_lockfile (fun _ => "") (fun _ => "") (s_g end6) = Ok lf' /\ to_kdl (fun _ => "") lf = to_kdl (fun _ => "") lf'.
Proof.
  exact (fun s Hs Hf => C05_text_partial ex_rsat ex_canon ex_parse unit _ _ _ (ex_deliver reg6) (fun _ => "") (fun _ => "") (fun _ => "") _ _ _ _ root6_new compat6 same6 valid6 s end6 Hs end6_reach Hf eq_refl).
Qed.
Example C05_text_tree : List.length (g_nodes (s_g end6)) = 3.
Proof. vm_compute. reflexivity. Qed.
