(** * Every package of the tree was asked for; what name it has (C50, C51) *)
From Verif Require Import Base Types ResolverModel ResolverProofs ResolverRun ResolverSpec ResolverThms ResolverSteps ResolverFacts.
From Coq Require Import Permutation.

Section Names.
  Variable rsat : range -> version -> bool.
  Variable canon : string -> option string.
  Variable parse_dep : string -> string -> res err pspec.
  Variable lnode : Type.
  Variable lnode_path : lnode -> list string.
  Variable lnode_manifest : lnode -> manifest.
  Variable to_package : lnode -> res err (option package).
  Variable deliver : pspec -> outcome -> Prop.
  Variable lock : option (lockpkgs lnode).
  Notation reach := (reach rsat canon parse_dep lnode lnode_path lnode_manifest to_package deliver lock).

  (** package [p], to be installed under the name [x] for a request [sp], is what the registry answered to that very request
      or what an entry of the lockfile for that name describes, and then it satisfies the request *)
  Definition answers (x : string) (sp : pspec) (p : package) : Prop :=
    (exists m, deliver sp (Ok (p, m)))
    \/ (exists lf path ln, lock = Some lf /\ In (path ++ [x], ln) lf /\ to_package ln = Ok (Some p)
        /\ satisfies rsat canon (pk_resolved p) sp = Ok true).

  Variables (root : node) (pkg : package) (m : manifest) (name : string).
  Hypothesis Hroot : new_node parse_dep name pkg m true = Ok root.

  Lemma wanted s : reach root s -> forall c n, getn (s_g s) c = Some n -> c <> 0 ->
    exists i sp t, i < c /\ linked (s_g s) i (n_name n) sp t c /\ declares (s_g s) i (n_name n) sp t /\ answers (n_name n) sp (n_pkg n).
  Proof.
    pose (J := fun (_ : nat) (g : graph) (_ : list nat) (_ : list dep) =>
      forall c p, pkg_of g c = Some p -> c <> 0 ->
        exists ei e, nth_error (g_edges g) ei = Some e /\ dep_of g (e_from e) (name_of g c) = Some ei /\ e_to e = c /\ e_from e < c /\ answers (name_of g c) (e_spec e) p).
    intros Hs.
    destruct (reach_J rsat canon parse_dep lnode lnode_path lnode_manifest to_package deliver lock 0 J) with (k := 0) (root := root) (pkg := pkg) (m := m) (name := name) (s := s)
      as (k' & _ & HJ); auto.
    - intros k g q P d g' x I A E. exists k. split; [lia|].
      destruct (satisfy_some _ _ _ _ _ _ E) as (nx & _ & _ & _ & ->).
      destruct (gi_P _ _ _ _ _ _ I d (or_introl eq_refl)) as (Hd & _ & Hnd & _).
      set (g1 := mkGraph (g_nodes g) (g_edges g ++ [mkEdge (d_node d) x (d_spec d) (d_type d)])) in *.
      destruct (link_dep_upd g1 (d_node d) (d_name d) (length (g_edges g)) Hd) as ((_ & _ & _ & U4 & U5 & _ & U7 & _) & Ued).
      intros c p. rewrite U5, U4. intros Hp Hc. destruct (A c p Hp Hc) as (ei & e & He & Hde & Hto & Hfr & Han).
      exists ei, e. rewrite Ued. split; [|split; [|auto]].
      + cbn [g_edges g1]. rewrite nth_error_app1; [exact He|]. apply nth_error_Some. congruence.
      + rewrite U7. change (dep_of g1 ?j ?y) with (dep_of g j y). destruct ((d_node d =? e_from e) && String.eqb (d_name d) (name_of g1 c)) eqn:Eq; [|exact Hde].
        apply andb_true_iff in Eq. destruct Eq as [E1 E2]. apply Nat.eqb_eq in E1. apply seqb_spec in E2. exfalso.
        change (name_of g1 c) with (name_of g c) in E2. rewrite <- E1, <- E2 in Hde. congruence.
    - intros k g q P d p m' tp g' ci I A E Hprov Ep. exists k. split; [lia|].
      destruct (gi_P _ _ _ _ _ _ I d (or_introl eq_refl)) as (Hd & _ & Hnd & _).
      destruct (place_child_inv _ _ _ _ _ _ _ _ _ _ Hd (ginv_parlt _ _ _ _ _ _ I) Ep) as (cn & tgt & Hn & -> & U & _).
      destruct U as (_ & U2 & _ & _ & U5 & U6 & _ & U8 & _).
      destruct (new_node_ok _ _ _ _ _ _ Hn) as (N1 & N2 & _).
      intros c p0. rewrite U6, U5. destruct (Nat.eqb_spec c (size g)) as [->|Hne].
      + intros H _. injection H as <-. exists (length (g_edges g)), (mkEdge (d_node d) (size g) (d_spec d) (d_type d)).
        rewrite U2, nth_error_app2, Nat.sub_diag by lia. split; [reflexivity|]. cbn [e_from e_to e_spec]. rewrite U8, N1, Nat.eqb_refl, (proj2 (seqb_spec _ _) eq_refl).
        split; [reflexivity|]. split; [reflexivity|]. split; [exact Hd|]. rewrite N2.
        destruct Hprov as [[_ Hdel]|(lf & ln & Hlk & Hsf & -> & _)]; [left; eauto|right].
        destruct (lockfile_entry _ _ _ _ _ _ _ _ _ _ _ Hsf) as (Hsat & pre & suf & _ & Hg & Hto & _).
        exists lf, pre, ln. repeat split; auto. eapply aget_In; [|exact Hg]. intros a b. apply (list_eqb_spec _ _ seqb_spec).
      + intros Hp Hc. destruct (A c p0 Hp Hc) as (ei & e & He & Hde & Hto & Hfr & Han).
        exists ei, e. rewrite U2. split; [rewrite nth_error_app1; [exact He|]; apply nth_error_Some; congruence|]. split; [|auto].
        rewrite U8. destruct ((e_from e =? d_node d) && String.eqb (name_of g c) (d_name d)) eqn:Eq; [|exact Hde].
        apply andb_true_iff in Eq. destruct Eq as [E1 E2]. apply Nat.eqb_eq in E1. apply seqb_spec in E2. exfalso.
        rewrite E1, E2 in Hde. congruence.
    - intros k g i q P n I HJ _. exists k. split; [lia | exact HJ].
    - intros c p. unfold pkg_of, getn, init_graph. cbn [g_nodes]. destruct c as [|c]; [congruence|]. destruct c; cbn; discriminate.
    - intros c n Hn Hc. destruct (HJ c (n_pkg n)) as (ei & e & He & Hde & Hto & Hfr & Han); [unfold pkg_of; now rewrite Hn | auto|].
      assert (En : name_of (s_g s) c = n_name n) by (unfold name_of; now rewrite Hn). rewrite En in *.
      assert (Hl : linked (s_g s) (e_from e) (n_name n) (e_spec e) (e_type e) c).
      { unfold dep_of in Hde. destruct (getn (s_g s) (e_from e)) as [nf|] eqn:Ef; [|discriminate].
        exists nf, ei. rewrite He. subst c. destruct e; auto. }
      exists (e_from e), (e_spec e), (e_type e). split; [exact Hfr|]. split; [exact Hl|]. split; [|exact Han].
      eapply links_ok; eauto.
  Qed.
End Names.
