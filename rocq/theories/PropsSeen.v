(** * Property C02 (what the walk up node_modules finds), name by name, for every schedule, with or without a lockfile.
    Vocabulary: [asked], [answers] (ResolverCycles); [declares], [visible], [acceptable] (ResolverSpec). *)
From Verif Require Import Base Types ResolverModel ResolverProofs ResolverRun ResolverSpec ResolverThms ResolverSteps ResolverFacts ResolverExamples
  ResolverCycles ResolverSeen PropsCycles.
Open Scope string_scope.
Open Scope list_scope.

Section World.
  Variable rsat : range -> version -> bool.
  Variable canon : string -> option string.
  Variable parse_dep : string -> string -> res err pspec.
  Variable lnode : Type.
  Variable lnode_path : lnode -> list string.
  Variable lnode_manifest : lnode -> manifest.
  Variable to_package : lnode -> res err (option package).
  Variable deliver : pspec -> outcome -> Prop.
  Variable lock : option (lockpkgs lnode).
  Notation asked := (asked rsat canon parse_dep lnode lnode_manifest to_package deliver lock).
  Notation answers := (answers rsat canon lnode lnode_manifest to_package deliver lock).
  Notation reach := (reach rsat canon parse_dep lnode lnode_path lnode_manifest to_package deliver lock).

  (** C02 for one name [x]: if whatever answers one request for [x] satisfies every request for [x] that can come up, then in the tree of
      every finished run each package that declares [x] sees, walking up node_modules, an acceptable [x], however responses interleave
      and whatever conflicts the other names have. Missing: names with conflicting versions (C02_refuted). *)
  Theorem C02_name_partial : forall root pkg m name x, new_node parse_dep name pkg m true = Ok root ->
    (forall sp sp' p m', asked root x sp -> asked root x sp' -> answers x sp p m' -> satisfies rsat canon (pk_resolved p) sp' = Ok true) ->
    forall s, reach root s -> finished s = true -> forall i sp t, declares (s_g s) i x sp t ->
    exists c, visible (s_g s) i x c /\ acceptable rsat canon deliver (s_g s) c sp.
  Proof.
    intros root pkg m name x Hroot Hx s Hs Hf i sp t Hd.
    destruct (complete _ _ _ _ _ _ _ _ _ _ _ _ _ Hroot s Hs Hf _ _ _ _ Hd) as (c & Hl & _).
    exact (name_seen rsat canon parse_dep lnode lnode_path lnode_manifest to_package deliver lock root pkg m name Hroot x Hx s Hs i sp t c Hd Hl).
  Qed.
End World.

(** Non-vacuity: in [reg9c] the names a and b qualify although c has two conflicting versions, and a run finishes. *)
Definition sched9c : list action :=
  [APop; AChunk 1 [rs reg9c (npm "a" (VVersion (v 1 0)))];
   APop; AChunk 2 [rs reg9c (npm "b" (VVersion (v 1 0))); rs reg9c (npm "c" (VVersion (v 1 0)))];
   APop; APop; AChunk 1 [rs reg9c (npm "c" (VVersion (v 2 0)))]; APop].
Definition end9c : st := get (ex_run (init root9c) sched9c) root9c.
Lemma end9c_reach : ex_reach reg9c root9c end9c.
Proof. apply ex_run_reach with (l := sched9c); [repeat constructor | vm_compute; reflexivity]. Qed.
Example C02_name_nonvacuous : finished end9c = true
  /\ (forall sp sp' p m', asked9 "a" sp -> asked9 "a" sp' -> answers9 "a" sp p m' -> satisfies ex_rsat ex_canon (pk_resolved p) sp' = Ok true)
  /\ ~ (forall sp sp' p m', asked9 "c" sp -> asked9 "c" sp' -> answers9 "c" sp p m' -> satisfies ex_rsat ex_canon (pk_resolved p) sp' = Ok true)
  /\ exists i sp t, 0 < i /\ declares (s_g end9c) i "a" sp t.
Proof.
  split; [vm_compute; reflexivity|]. split; [|split].
  - intros sp sp' p m' H H' Ha. apply answers9_is in Ha. apply asked9_is in H. apply asked9_is in H'.
    destruct H as [[_ ->]|[[E _]|[E _]]]; [|discriminate E|discriminate E]. vm_compute in Ha. injection Ha as <- _.
    destruct H' as [[_ ->]|[[E _]|[E _]]]; [reflexivity|discriminate E|discriminate E].
  - intros H.
    assert (Aa : asked9 "a" (npm "a" (VVersion (v 1 0)))) by (eapply asked_root; reflexivity).
    assert (Ab : asked9 "b" (npm "b" (VVersion (v 1 0)))) by (eapply asked_dep; [exact Aa|left; reflexivity|eexists; eexists; split; reflexivity]).
    assert (Ac : asked9 "c" (npm "c" (VVersion (v 1 0)))) by (eapply asked_dep; [exact Aa|left; reflexivity|eexists; eexists; split; reflexivity]).
    assert (Ac' : asked9 "c" (npm "c" (VVersion (v 2 0)))) by (eapply asked_dep; [exact Ab|left; reflexivity|eexists; eexists; split; reflexivity]).
    assert (W : exists p m', answer reg9c (npm "c" (VVersion (v 1 0))) = Ok (p, m') /\ satisfies ex_rsat ex_canon (pk_resolved p) (npm "c" (VVersion (v 2 0))) = Ok false).
    { eexists. eexists. split; vm_compute; reflexivity. }
    destruct W as (p & m' & Hw & Hn). assert (Y := H _ _ p m' Ac Ac' (or_introl (eq_sym Hw))). rewrite Hn in Y. discriminate Y.
  - exists 2, (npm "a" (VVersion (v 1 0))), Prod. split; [lia|]. unfold declares. eexists. split; vm_compute; reflexivity.
Qed.

Print Assumptions C02_name_partial.
