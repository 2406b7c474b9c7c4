(** * Names without conflicts are seen right in every schedule.
    Where each package of the tree came from, and that whatever a package is linked to is installed beside it or further up. *)
From Verif Require Import Base Types ResolverModel ResolverProofs ResolverRun ResolverSpec ResolverThms ResolverSteps ResolverTerm ResolverFacts ResolverCycles.
From Coq Require Import Permutation.
Open Scope list_scope.

Section Names.
  Variable rsat : range -> version -> bool.
  Variable canon : string -> option string.
  Variable parse_dep : string -> string -> res err pspec.
  Variable lnode : Type.
  Variable lnode_path : lnode -> list string.
  Variable lnode_manifest : lnode -> manifest.
  Variable to_package : lnode -> res err (option package).
  Variable deliver : pspec -> outcome -> Prop.
  Variable lock : option (lockpkgs lnode).
  Variables (root : node) (pkg : package) (m : manifest) (name : string).
  Notation sat := (satisfies rsat canon).
  Notation GInv := (GInv rsat canon deliver).
  Notation new_node := (new_node parse_dep).
  Notation satisfy_dependency := (satisfy_dependency rsat canon).
  Notation place_child := (place_child rsat canon parse_dep).
  Notation provided := (provided rsat canon lnode lnode_path lnode_manifest to_package deliver lock).
  Notation reach := (reach rsat canon parse_dep lnode lnode_path lnode_manifest to_package deliver lock).
  Notation asked := (asked rsat canon parse_dep lnode lnode_manifest to_package deliver lock root).
  Notation answers := (answers rsat canon lnode lnode_manifest to_package deliver lock).
  Hypothesis Hroot : new_node name pkg m true = Ok root.

  Definition origJ (k : nat) (g : graph) (q : list nat) (P : list dep) : Prop :=
    (forall i, 0 < i < size g -> exists sp p m' n, asked (name_of g i) sp /\ answers (name_of g i) sp p m' /\ pkg_of g i = Some p
        /\ new_node (name_of g i) p m' false = Ok n /\ forall y, req_of g i y = sget y (n_reqs n))
    /\ (forall y, req_of g 0 y = sget y (n_reqs root))
    /\ (forall d, In d P -> asked (d_name d) (d_spec d))
    /\ (forall e, In e (g_edges g) -> exists p, parent_of g (e_to e) = Some p /\ under g (e_from e) p).

  Lemma orig_req g i y sp t k q P : origJ k g q P -> i < size g -> req_of g i y = Some (sp, t) -> asked y sp.
  Proof.
    intros (H1 & H2 & _) Hi Hr. destruct (Nat.eq_dec i 0) as [->|Hne].
    - rewrite H2 in Hr. eapply asked_root; eauto.
    - destruct (H1 i ltac:(lia)) as (sp0 & p & m' & n & Ha & Hw & Hp & Hn & Hq). rewrite Hq in Hr.
      eapply asked_dep; [exact Ha|exact Hw|]. exists n, t. auto.
  Qed.

  Lemma orig_sat k g q P d g' x : GInv g q (d :: P) -> origJ k g q (d :: P) -> satisfy_dependency g d = Ok (Some (g', x)) -> origJ k g' q P.
  Proof.
      intros I (H1 & H2 & H3 & H4) Hsat.
      destruct (satisfy_some _ _ _ _ _ _ Hsat) as (nx & Hr & Hx & Hss & ->).
      destruct (gi_P _ _ _ _ _ _ I d (or_introl eq_refl)) as (Hdn & _).
      pose proof (ginv_parlt _ _ _ _ _ _ I) as Hp.
      set (e0 := mkEdge (d_node d) x (d_spec d) (d_type d)).
      destruct (link_dep_upd (mkGraph (g_nodes g) (g_edges g ++ [e0])) (d_node d) (d_name d) (length (g_edges g)))
        as [(Usz & Upar & Uch & Unm & Upk & Urq & Udp & Unr) Hed]; [exact Hdn|].
      assert (Hu : forall i a, under g i a -> under (link_dep (mkGraph (g_nodes g) (g_edges g ++ [e0])) (d_node d) (d_name d) (length (g_edges g))) i a).
      { intros i a. apply under_ext. intros j. rewrite Upar. reflexivity. }
      split; [|split; [|split]].
      + intros i Hi. rewrite Usz in Hi. destruct (H1 i Hi) as (sp & p & m' & n & B & C & D & E & F).
        exists sp, p, m', n. rewrite Unm, Upk. repeat split; auto. intros y. rewrite Urq. apply F.
      + intros y. rewrite Urq. apply H2.
      + intros d' Hd'. apply H3. now right.
      + intros e He. rewrite Hed in He. cbn [g_edges] in He. rewrite Upar. apply in_app_iff in He. destruct He as [He|[<-|[]]].
        * destruct (H4 e He) as (p & Hpp & Hup). exists p. split; [exact Hpp|apply Hu; exact Hup].
        * apply (lookup_resolve g Hp _ Hdn) in Hr. destruct (lookup_spec _ _ _ _ Hr) as (a & Hua & Hca & _).
          destruct (gi_child _ _ _ _ _ _ I _ _ _ Hca) as (_ & Hpa & _). exists a. split; [exact Hpa|apply Hu; exact Hua].
  Qed.
  Lemma orig_place k g q P d p m' tp g' ci : GInv g q (d :: P) -> origJ k g q (d :: P) -> satisfy_dependency g d = Ok None ->
    provided g d p m' tp -> place_child g d p m' tp = Ok (g', ci) -> origJ k g' (q ++ [ci]) P.
  Proof.
      intros I (H1 & H2 & H3 & H4) Hsat Hpr Hpl.
      pose proof (ginv_parlt _ _ _ _ _ _ I) as Hp.
      destruct (gi_P _ _ _ _ _ _ I d (or_introl eq_refl)) as (Hdn & _).
      destruct (place_child_inv _ _ _ _ _ _ _ _ _ _ Hdn Hp Hpl) as (cn & tgt & Hcn & -> & U & Htl & Hut & _).
      destruct U as (Usz & Hed & Upar & Uch & Unm & Upk & Urq & Udp & Unr).
      destruct (new_node_ok _ _ _ _ _ _ Hcn) as (Hnm & Hpk & Hpa & Hch & Hde & Hnd).
      assert (Hz : size g > 0) by apply (gi_root _ _ _ _ _ _ I).
      pose proof (provided_answers _ _ _ _ _ _ _ _ _ _ _ _ _ Hpr) as Han.
      assert (Huold : forall i a, i < size g -> (under g' i a <-> under g i a)).
      { apply (under_new g g' (size g) tgt Hp eq_refl). intros j. rewrite Upar. reflexivity. }
      split; [|split; [|split]].
      + intros i Hi. rewrite Usz in Hi. rewrite Unm, Upk.
        destruct (Nat.eqb_spec i (size g)) as [->|Hne].
        * exists (d_spec d), p, m', cn. rewrite Hnm, Hpk. repeat split; auto.
          -- apply H3. now left.
          -- intros y. rewrite Urq, Nat.eqb_refl. auto.
        * destruct (H1 i ltac:(lia)) as (sp & p1 & m1 & n & B & C & D & E & F).
          exists sp, p1, m1, n. repeat split; auto. intros y. rewrite Urq.
          destruct (Nat.eqb_spec i (size g)); [lia | auto].
      + intros y. rewrite Urq. destruct (Nat.eqb_spec 0 (size g)); [lia | auto].
      + intros d' Hd'. apply H3. now right.
      + intros e He. rewrite Hed in He. apply in_app_iff in He. rewrite Upar. destruct He as [He|[<-|[]]].
        * destruct (gi_edge _ _ _ _ _ _ I _ He) as [Hf Ht]. destruct (Nat.eqb_spec (e_to e) (size g)); [lia|].
          destruct (H4 e He) as (p0 & Hpp & Hup). exists p0. split; [auto|]. apply Huold; auto.
        * cbn [e_to e_from]. change (length (g_nodes g)) with (size g). rewrite Nat.eqb_refl. exists tgt. split; [auto|]. apply Huold; auto.
  Qed.
  Lemma orig_pop k g i q P n : GInv g (i :: q) P -> origJ k g (i :: q) P -> getn g i = Some n -> origJ k g q (deps_of i n ++ P).
  Proof.
      intros I HJ Hn. pose proof HJ as (H1 & H2 & H3 & H4). split; [auto|]. split; [auto|]. split; [|auto].
      intros d Hd. apply in_app_iff in Hd. destruct Hd as [Hd|Hd]; [|auto].
      unfold deps_of in Hd. apply in_map_iff in Hd. destruct Hd as ([x [sp t]] & <- & Hin). cbn.
      assert (Hrq : req_of g i x = Some (sp, t)).
      { unfold req_of. rewrite Hn. apply In_aget; [apply seqb_spec | eapply gi_reqs; eauto | auto]. }
      assert (i < size g) by (apply getn_lt; eauto). eapply orig_req; eauto.
  Qed.
  Lemma orig_perm k g q q' P P' : Permutation q q' -> Permutation P P' -> origJ k g q P -> origJ k g q' P'.
  Proof.
    intros Hq HP (H1 & H2 & H3 & H4). split; [auto|]. split; [auto|]. split; [|auto].
    intros d Hd. apply H3. eapply Permutation_in; [symmetry|]; eauto.
  Qed.
  Lemma orig_init k : origJ k (init_graph root) [0] [].
  Proof.
    split; [|split; [intros y; reflexivity|split; [intros d []|intros e []]]]. intros i Hi. unfold size in Hi; cbn in Hi. lia.
  Qed.
  Lemma orig_reach s : reach root s -> origJ 0 (s_g s) (s_q s) (waiting s).
  Proof.
    intros Hs.
    destruct (reach_J rsat canon parse_dep lnode lnode_path lnode_manifest to_package deliver lock 0 origJ)
      with (root := root) (pkg := pkg) (m := m) (name := name) (k := 0) (s := s) as (k' & _ & H); auto.
    - intros k g q q' P P'. apply orig_perm.
    - intros k g q P d g' x I HJ Hsat. exists k. split; [lia|]. eapply orig_sat; eauto.
    - intros k g q P d p m' tp g' ci I HJ Hsat Hpr Hpl. exists k. split; [lia|]. eapply orig_place; eauto.
    - intros k g i q P n I HJ Hn. exists k. split; [lia|]. eapply orig_pop; eauto.
    - apply orig_init.
  Qed.

  Lemma name_seen x : (forall sp sp' p m', asked x sp -> asked x sp' -> answers x sp p m' -> sat (pk_resolved p) sp' = Ok true) ->
    forall s, reach root s -> forall i sp t c, declares (s_g s) i x sp t -> linked (s_g s) i x sp t c ->
    exists c', visible (s_g s) i x c' /\ acceptable rsat canon deliver (s_g s) c' sp.
  Proof.
    intros Hx s Hs i sp t c Hd Hl. pose proof (reach_inv _ _ _ _ _ _ _ _ _ _ _ _ _ _ Hroot Hs) as [I _ _ _ _].
    pose proof (orig_reach s Hs) as HJ. pose proof HJ as (H1 & _ & _ & H4). pose proof (ginv_parlt _ _ _ _ _ _ I) as Hp.
    destruct (linked_dep _ _ _ _ _ _ Hl) as (ei & Hdep & He). destruct (gi_dep _ _ _ _ _ _ I _ _ _ Hdep) as (e & He' & _ & _ & Hnm & Hnz & _).
    rewrite He in He'. injection He' as <-. cbn [e_to] in Hnm, Hnz.
    destruct (H4 _ (nth_error_In _ _ He)) as (p & Hpp & Hup). cbn [e_to e_from] in Hpp, Hup.
    assert (Hi : i < size (s_g s)) by (eapply dep_of_lt; eauto).
    assert (Hc : c < size (s_g s)) by (eapply parent_of_lt; eauto).
    destruct (gi_par _ _ _ _ _ _ I c ltac:(lia)) as (p' & Hpp' & _ & Hcp). rewrite Hpp in Hpp'. injection Hpp' as <-. rewrite Hnm in Hcp.
    assert (Hlk : exists r, lookup (s_g s) i x r).
    { clear -Hup Hcp. induction Hup as [i | i p1 a1 Hp Hu IH]; [exists c; now constructor|].
      destruct (child_of (s_g s) i x) eqn:E; [eexists; constructor; eauto|].
      destruct (IH Hcp) as [r Hr]. exists r. eapply lk_up; eauto. }
    destruct Hlk as [r Hr]. exists r. split; [apply (lookup_visible _ _ _ _ _ _ I); auto|].
    destruct (lookup_spec _ _ _ _ Hr) as (a & _ & Hca & _). destruct (gi_child _ _ _ _ _ _ I _ _ _ Hca) as (Hrs & Hrp & Hrn).
    assert (r <> 0). { intros ->. rewrite (proj2 (gi_root _ _ _ _ _ _ I)) in Hrp. discriminate. }
    destruct (H1 r ltac:(lia)) as (sp0 & pr & mr & nn & Hask & Hw & Hpk & _). rewrite Hrn in Hask, Hw.
    unfold pkg_of in Hpk. destruct (getn (s_g s) r) as [nr|] eqn:En; [|discriminate]. injection Hpk as Hpk.
    exists nr. split; [auto|]. left. rewrite Hpk. apply req_declares in Hd.
    assert (Hask' : asked x sp) by (exact (orig_req _ _ _ _ _ _ _ _ HJ Hi Hd)).
    exact (Hx _ _ _ _ Hask Hask' Hw).
  Qed.
End Names.
