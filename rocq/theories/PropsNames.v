(** * Properties C50 and C51: nothing is installed that was not asked for, and under the name that was asked for.
    Vocabulary: [reach root s]: [s] is a state of a resolution; [declares g i x sp t]: package [i] asks for [x] with spec [sp];
    [linked g i x sp t c]: that dependency was given package [c]; [answers x sp p] (ResolverNames): [p] is what the registry
    answered to the request [sp], or what the lockfile has for a package called [x], provided it satisfies [sp]. *)
From Verif Require Import Base Types ResolverModel ResolverProofs ResolverRun ResolverSpec ResolverThms ResolverSteps ResolverFacts ResolverNames ResolverExamples.
Open Scope string_scope.
Open Scope list_scope.

(** the packages the project depends on, directly or not *)
Inductive needed (g : graph) : nat -> Prop :=
  | needed_root : needed g 0
  | needed_dep i x sp t c : needed g i -> linked g i x sp t c -> needed g c.

Section World.
  Variable rsat : range -> version -> bool.
  Variable canon : string -> option string.
  Variable parse_dep : string -> string -> res err pspec.
  Variable lnode : Type.
  Variable lnode_path : lnode -> list string.
  Variable lnode_manifest : lnode -> manifest.
  Variable to_package : lnode -> res err (option package).
  Variable deliver : pspec -> outcome -> Prop.
  Variable lock : option (lockpkgs lnode).
  Notation reach := (reach rsat canon parse_dep lnode lnode_path lnode_manifest to_package deliver lock).
  Notation answers := (answers rsat canon lnode to_package deliver lock).

  (** C50: at every moment of every resolution each package of the tree but the project was asked for, by the name it is
      installed under, by a package that is in the tree for a good reason itself, and is what the registry or the lockfile
      answers to that request. *)
  Theorem C50_only_what_was_asked_for : forall root pkg m name, new_node parse_dep name pkg m true = Ok root -> forall s, reach root s ->
    forall c n, getn (s_g s) c = Some n -> needed (s_g s) c
      /\ (c <> 0 -> exists i sp t, needed (s_g s) i /\ declares (s_g s) i (n_name n) sp t /\ linked (s_g s) i (n_name n) sp t c
                     /\ answers (n_name n) sp (n_pkg n)).
  Proof.
    intros root pkg m name Hroot s Hs.
    assert (Hw := wanted rsat canon parse_dep lnode lnode_path lnode_manifest to_package deliver lock root pkg m name Hroot s Hs).
    assert (Hall : forall c, c < size (s_g s) -> needed (s_g s) c).
    { intros c. induction c as [c IH] using lt_wf_ind. intros Hc. destruct (Nat.eq_dec c 0) as [->|Hne]; [constructor|].
      destruct (proj1 (getn_lt _ _) Hc) as [n Hn]. destruct (Hw c n Hn Hne) as (i & sp & t & Hi & Hl & _).
      eapply needed_dep; [|exact Hl]. apply IH; lia. }
    intros c n Hn. assert (Hc : c < size (s_g s)) by (apply getn_lt; eauto). split; [auto|].
    intros Hne. destruct (Hw c n Hn Hne) as (i & sp & t & Hi & Hl & Hd & Ha). exists i, sp, t. repeat split; auto. apply Hall; lia.
  Qed.

  (** C51: a request for the registry package [nm] is only ever given a package published as [nm] (names compare without
      regard to case), provided no package of the tree asks for a package under another name, the registry answers requests
      for [nm] with [nm], and each lockfile entry is for the package it is named after.
      Missing: trees with aliases, where it is false (C51_refuted). *)
  Theorem C51_partial : forall root pkg m name, new_node parse_dep name pkg m true = Ok root -> forall s, reach root s ->
    (forall sp p m' nm v url integ, deliver sp (Ok (p, m')) -> pk_resolved p = RNpm nm v url integ -> exists sc r, target sp = SNpm sc nm r) ->
    (forall lf path x ln p, lock = Some lf -> In (path ++ [x], ln) lf -> to_package ln = Ok (Some p) ->
       forall nm v url integ, pk_resolved p = RNpm nm v url integ -> ufold nm = x) ->
    (forall i x sp t, declares (s_g s) i x sp t -> forall sc nm r, target sp = SNpm sc nm r -> ufold nm = x) ->
    forall i x sp t c n, linked (s_g s) i x sp t c -> getn (s_g s) c = Some n -> c <> 0 ->
    forall sc nm r nm' v url integ, target sp = SNpm sc nm r -> pk_resolved (n_pkg n) = RNpm nm' v url integ -> ufold nm' = ufold nm.
  Proof.
    intros root pkg m name Hroot s Hs Hdel Hlk Hno i x sp t c n Hl Hn Hc sc nm r nm' v url integ Ht Hr.
    destruct (links_ok rsat canon parse_dep lnode lnode_path lnode_manifest to_package deliver lock root pkg m name Hroot s Hs _ _ _ _ _ Hl) as [Hd _].
    rewrite (Hno _ _ _ _ Hd _ _ _ Ht).
    assert (Ex : x = n_name n).
    { pose proof (reach_inv _ _ _ _ _ _ _ _ _ _ _ _ _ _ Hroot Hs) as [I _ _ _ _].
      destruct (linked_dep _ _ _ _ _ _ Hl) as (ei & Hde & He).
      destruct (gi_dep _ _ _ _ _ _ I _ _ _ Hde) as (e' & He' & _ & _ & Hnm & _). rewrite He in He'. injection He' as <-. cbn [e_to] in Hnm.
      unfold name_of in Hnm. rewrite Hn in Hnm. congruence. }
    subst x. destruct (wanted rsat canon parse_dep lnode lnode_path lnode_manifest to_package deliver lock root pkg m name Hroot s Hs c n Hn Hc)
      as (i' & sp' & t' & _ & _ & Hd' & [(m' & Ha)|(lf & path & ln & Hlf & Hin & Hto & _)]).
    - destruct (Hdel _ _ _ _ _ _ _ Ha Hr) as (sc' & r' & Ht'). eapply Hno; eauto.
    - eapply Hlk; eauto.
  Qed.
End World.
Print Assumptions C50_only_what_was_asked_for.
Print Assumptions C51_partial.

(** ** concrete cases *)
Definition alias_parse (name spec : string) : res err pspec :=
  if String.eqb spec "npm:f@1.0.0" then Ok (SAlias name (npm "f" (VVersion (v 1 0)))) else ex_parse name spec.
(** the project installs f under the name b; a asks for the real b *)
Definition reg51 : registry := [("a", [(v 1 0, man [("b", "1.0.0")])]); ("b", [(v 1 0, no_deps)]); ("f", [(v 1 0, no_deps)])].
Definition man51 : manifest := man [("a", "1.0.0"); ("b", "npm:f@1.0.0")].
Definition root51 : node := match new_node alias_parse "root" root_pkg man51 true with Ok n => n | _ => mkNode "" root_pkg None [] [] [] end.
Definition answer51 (s : pspec) : outcome := answer reg51 (target s).
Definition exec51 := exec ex_rsat ex_canon alias_parse unit (fun _ => []) (fun _ => no_deps) (fun _ => Ok None) None.
Definition reach51 := reach ex_rsat ex_canon alias_parse unit (fun _ => []) (fun _ => no_deps) (fun _ => Ok None) (fun s o => o = answer51 s) None.
Fixpoint run51 (s : st) (l : list action) : option st :=
  match l with [] => Some s | a :: t => match exec51 s a with Some (Ok s') => run51 s' t | _ => None end end.
Definition sched51 : list action :=
  [APop; AChunk 2 [(npm "a" (VVersion (v 1 0)), answer51 (npm "a" (VVersion (v 1 0))));
                   (SAlias "b" (npm "f" (VVersion (v 1 0))), answer51 (SAlias "b" (npm "f" (VVersion (v 1 0)))))]; APop; APop].
Definition end51 : st := get (run51 (init root51) sched51) root51.
Lemma end51_reach : reach51 root51 end51.
Proof.
  assert (G : forall l s s', reach51 root51 s -> Forall (fun a => match a with APop => True | AChunk _ l => Forall (fun r => snd r = answer51 (fst r)) l end) l ->
    run51 s l = Some s' -> reach51 root51 s').
  { clear. induction l as [|a t IH]; cbn; intros s s' Hr Hh H; [inversion H; now subst|].
    inversion Hh; subst. destruct (exec51 s a) as [[s1| |]|] eqn:E; try discriminate.
    eapply IH; [|eauto|eauto]. econstructor; [exact Hr | | exact E]. destruct a; cbn in *; auto. }
  apply (G sched51 (init root51)); [constructor | repeat constructor | vm_compute; reflexivity].
Qed.

(** C51 is false: the registry has a package b, a depends on b@1.0.0, and a is given package f because the project uses the
    name b for f. *)
Theorem C51_refuted : exists root m s i x sp t c n,
  new_node alias_parse "root" root_pkg m true = Ok root /\ reach51 root s /\ finished s = true
  /\ (forall sp p m' nm v url integ, answer51 sp = Ok (p, m') -> pk_resolved p = RNpm nm v url integ -> exists sc r, target sp = SNpm sc nm r)
  /\ linked (s_g s) i x sp t c /\ getn (s_g s) c = Some n
  /\ sp = npm "b" (VVersion (v 1 0)) /\ (exists url integ, pk_resolved (n_pkg n) = RNpm "f" (v 1 0) url integ)
  /\ (exists p m', answer51 sp = Ok (p, m') /\ exists url integ, pk_resolved p = RNpm "b" (v 1 0) url integ).
Proof.
  exists root51, man51, end51, 1, "b", (npm "b" (VVersion (v 1 0))), Prod, 2. eexists.
  split; [reflexivity|]. split; [exact end51_reach|]. split; [vm_compute; reflexivity|]. split.
  { intros sp p m' nm w url integ H Hr. unfold answer51 in H. destruct (target sp) as [| |sc nm0 r|]; cbn [answer] in H; try discriminate. destruct sc; [discriminate|].
    destruct (sget nm0 reg51) as [l|]; [|discriminate]. destruct (ex_pick r l) as [[x y]|]; [|discriminate]. injection H as <- _. cbn in Hr. injection Hr as -> _ _ _. eauto. }
  split; [do 2 eexists; split; [vm_compute; reflexivity | split; vm_compute; reflexivity]|].
  split; [vm_compute; reflexivity|]. split; [reflexivity|]. split; [do 2 eexists; vm_compute; reflexivity|].
  do 2 eexists. split; [vm_compute; reflexivity|]. do 2 eexists. vm_compute. reflexivity.
Qed.
Print Assumptions C51_refuted.

(** the run of reg2 (two copies of n and of b) meets the hypotheses of C50 and C51 *)
Example C50_nonvacuous : ex_reach reg2 root2 end2 /\ size (s_g end2) = 6
  /\ (forall sp p m' nm v url integ, ex_deliver reg2 sp (Ok (p, m')) -> pk_resolved p = RNpm nm v url integ -> exists sc r, target sp = SNpm sc nm r)
  /\ (forall i x sp t, declares (s_g end2) i x sp t -> forall sc nm r, target sp = SNpm sc nm r -> ufold nm = x).
Proof.
  split; [exact end2_reach|]. split; [vm_compute; reflexivity|]. split.
  - intros sp p m' nm w url integ H Hr. unfold ex_deliver in H. symmetry in H. destruct sp as [| |sc nm0 r|]; cbn [answer] in H; try discriminate. destruct sc; [discriminate|].
    destruct (sget nm0 reg2) as [l|]; [|discriminate]. destruct (ex_pick r l) as [[x y]|]; [|discriminate]. injection H as <- _. cbn in Hr. injection Hr as -> _ _ _. cbn. eauto.
  - intros i x sp t (n & Hn & H). destruct i as [|[|[|[|[|[|i]]]]]]; [vm_compute in Hn; injection Hn as <- .. | vm_compute in Hn; destruct i; discriminate Hn].
    all: apply aget_In in H; [|apply seqb_spec]; cbn [n_reqs In] in H; repeat (destruct H as [H|H]; [injection H as <- <- <-; intros sc nm r E; injection E as _ <- _; vm_compute; reflexivity|]); destruct H.
Qed.
