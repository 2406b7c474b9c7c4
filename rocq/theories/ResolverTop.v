(** * Names without conflicts are installed at the top, whatever the order of the registry's responses (no lockfile). *)
From Verif Require Import Base Types ResolverModel ResolverProofs ResolverRun ResolverSpec ResolverThms ResolverSteps ResolverTerm ResolverFacts ResolverCycles
  ResolverSeen.
From Coq Require Import Permutation.
Open Scope list_scope.

Section Top.
  Variable rsat : range -> version -> bool.
  Variable canon : string -> option string.
  Variable parse_dep : string -> string -> res err pspec.
  Variable lnode : Type.
  Variable lnode_path : lnode -> list string.
  Variable lnode_manifest : lnode -> manifest.
  Variable to_package : lnode -> res err (option package).
  Variable deliver : pspec -> outcome -> Prop.
  Variables (root : node) (pkg : package) (m : manifest) (name : string).
  Notation sat := (satisfies rsat canon).
  Notation GInv := (GInv rsat canon deliver).
  Notation new_node := (new_node parse_dep).
  Notation satisfy_dependency := (satisfy_dependency rsat canon).
  Notation place_child := (place_child rsat canon parse_dep).
  Notation provided := (provided rsat canon lnode lnode_path lnode_manifest to_package deliver None).
  Notation reach := (reach rsat canon parse_dep lnode lnode_path lnode_manifest to_package deliver None).
  Notation asked := (asked rsat canon parse_dep lnode lnode_manifest to_package deliver None root).
  Notation answers := (answers rsat canon lnode lnode_manifest to_package deliver None).
  Notation origJ := (origJ rsat canon parse_dep lnode lnode_manifest to_package deliver None root).
  Hypothesis Hroot : new_node name pkg m true = Ok root.

  Variable x : string.
  Hypothesis calm : forall sp sp' p m', asked x sp -> asked x sp' -> answers x sp p m' -> sat (pk_resolved p) sp' = Ok true.

  Definition topJ (k : nat) (g : graph) (q : list nat) (P : list dep) : Prop :=
    origJ k g q P /\ (forall i, 0 < i < size g -> name_of g i = x -> parent_of g i = Some 0).

  Lemma under_root g q P i : GInv g q P -> i < size g -> under g i 0.
  Proof.
    intros I. pose proof (ginv_parlt _ _ _ _ _ _ I) as Hp. induction (lt_wf i) as [i _ IH]. intros Hi.
    destruct (Nat.eq_dec i 0) as [->|Hne]; [constructor|].
    destruct (gi_par _ _ _ _ _ _ I i ltac:(lia)) as (p & Hpp & _). pose proof (Hp _ _ Hpp).
    eapply under_step; [exact Hpp|]. apply IH; lia.
  Qed.

  (** whatever is called [x] in the tree satisfies every request for [x] *)
  Lemma top_sat k g q P i nd sp : GInv g q P -> origJ k g q P -> 0 < i < size g -> name_of g i = x -> getn g i = Some nd ->
    asked x sp -> sat (pk_resolved (n_pkg nd)) sp = Ok true.
  Proof.
    intros I (H1 & _) Hi Hn Hg Ha. destruct (H1 i Hi) as (sp0 & p & m' & n & A & B & C & _).
    unfold pkg_of in C. rewrite Hg in C. injection C as ->. rewrite Hn in A, B. eapply calm; eauto.
  Qed.

  Lemma top_none k g q P d : GInv g q (d :: P) -> origJ k g q (d :: P) -> d_name d = x -> satisfy_dependency g d = Ok None ->
    resolve_dep g (d_node d) x = None.
  Proof.
    intros I HJ Hx Hs. pose proof HJ as (_ & _ & H3 & _). pose proof (ginv_parlt _ _ _ _ _ _ I) as Hp.
    destruct (gi_P _ _ _ _ _ _ I d (or_introl eq_refl)) as (Hdn & _).
    destruct (resolve_dep g (d_node d) x) as [c|] eqn:Er; [exfalso|auto].
    assert (Hl : lookup g (d_node d) x c) by (apply lookup_resolve; auto).
    destruct (lookup_spec _ _ _ _ Hl) as (a & _ & Hc & _).
    destruct (gi_child _ _ _ _ _ _ I _ _ _ Hc) as (Hcs & Hcp & Hcn).
    assert (c <> 0). { intros ->. rewrite (proj2 (gi_root _ _ _ _ _ _ I)) in Hcp. discriminate. }
    destruct (proj1 (getn_lt g c) Hcs) as [nc En].
    rewrite <- Hx in Er. pose proof (satisfy_none _ _ _ _ Hs _ _ Er En) as Hf.
    assert (Ha : asked x (d_spec d)) by (rewrite <- Hx; apply H3; now left).
    assert (Hc0 : 0 < c < size g) by lia.
    rewrite (top_sat _ _ _ _ _ _ _ I HJ Hc0 Hcn En Ha) in Hf. discriminate.
  Qed.

  Lemma climb_all g y sp p : parlt g -> parent_of g 0 = None -> forall i, i < size g -> under g i 0 ->
    (forall j, under g i j -> conflict_existing rsat canon g j y sp = Ok false /\ conflict_req rsat canon g j y p = Ok false) ->
    forall tgt, climb rsat canon g y sp p None tgt (parents g i) = Ok 0.
  Proof.
    intros Hp H0. induction i as [i IH] using (well_founded_induction lt_wf). intros Hi Hu Hc tgt.
    rewrite parents_unfold by auto. destruct (Hc i (under_refl _ _)) as [C1 C2]. cbn. rewrite C1. cbn. rewrite C2. cbn.
    destruct (parent_of g i) as [pp|] eqn:Ep.
    - pose proof (Hp _ _ Ep). apply IH; [lia|lia| |].
      + inversion Hu as [i0|i0 p0 a0 E1 U1]; subst; [congruence|]. rewrite Ep in E1. injection E1 as <-. exact U1.
      + intros j Hj. apply Hc. eapply under_step; eauto.
    - inversion Hu as [i0|i0 p0 a0 E1 U1]; subst; [reflexivity|congruence].
  Qed.

  Lemma top_place k g q P d p m' tp g' ci : GInv g q (d :: P) -> origJ k g q (d :: P) -> satisfy_dependency g d = Ok None ->
    provided g d p m' tp -> place_child g d p m' tp = Ok (g', ci) -> d_name d = x ->
    exists cn, new_node x p m' false = Ok cn /\ upd_place g d cn 0 g' /\ ci = size g /\ child_of g 0 x = None.
  Proof.
    intros I HJ Hs Hpr Hpl Hx. pose proof (top_none _ _ _ _ _ I HJ Hx Hs) as Hno. pose proof HJ as (H1 & H2 & H3 & _).
    pose proof (provided_answers _ _ _ _ _ _ _ _ _ _ _ _ _ Hpr) as Han.
    pose proof (ginv_parlt _ _ _ _ _ _ I) as Hp.
    destruct (gi_P _ _ _ _ _ _ I d (or_introl eq_refl)) as (Hdn & _).
    destruct Hpr as [[-> Hdel]|(lf & ln & E & _)]; [|discriminate].
    destruct (place_child_inv _ _ _ _ _ _ _ _ _ _ Hdn Hp Hpl) as (cn0 & tgt0 & Hcn0 & -> & U0 & _).
    unfold ResolverModel.place_child in Hpl. rewrite Hcn0 in Hpl. cbn in Hpl.
    destruct (new_node_ok _ _ _ _ _ _ Hcn0) as (Hnm & Hpk & Hpa & Hch & Hde & Hnd).
    change (mkGraph (g_nodes g ++ [cn0]) (g_edges g ++ [mkEdge (d_node d) (length (g_nodes g)) (d_spec d) (d_type d)]))
      with (pre_place g d cn0) in Hpl.
    set (g1 := pre_place g d cn0) in *.
    assert (Hp1 : parlt g1) by (intros i p0; unfold g1; rewrite pre_parent by auto; apply Hp).
    assert (Hz : size g > 0) by apply (gi_root _ _ _ _ _ _ I).
    assert (Hr0 : parent_of g 0 = None) by apply (gi_root _ _ _ _ _ _ I).
    assert (Hask : asked x (d_spec d)) by (rewrite <- Hx; apply H3; now left).
    rewrite Hx in Hpl, Han, Hcn0.
    assert (Hu0 : under g (d_node d) 0) by (eapply under_root; eauto).
    assert (Hno1 : forall j, under g (d_node d) j -> resolve_dep g1 j x = None).
    { intros j Hu. destruct (resolve_dep g1 j x) as [c|] eqn:Er; [exfalso|auto].
      assert (Hj : j < size g) by (pose proof (under_lt _ Hp _ _ Hu); lia).
      assert (Hl : lookup g1 j x c) by (apply lookup_resolve; [auto | unfold g1; rewrite pre_size; lia | auto]).
      assert (Hl' : lookup g j x c).
      { eapply (lookup_ext g1 g); [intros; unfold g1; symmetry; apply pre_parent; auto | intros; unfold g1; symmetry; apply pre_child; auto | exact Hl]. }
      destruct (lookup_spec _ _ _ _ Hl') as (a & Hua & Hca & _).
      assert (Hex : exists c', resolve_dep g (d_node d) x = Some c').
      { assert (Hua' : under g (d_node d) a) by (eapply under_trans; eauto).
        clear -Hp Hdn Hca Hua'. revert Hdn. induction Hua' as [i|i p0 a0 Hpi Hu IH]; intros Hi.
        - exists c. apply lookup_resolve; auto. now constructor.
        - assert (p0 < i) by now apply Hp. destruct IH as [c' Hc']; [auto | lia|].
          destruct (child_of g i x) as [c2|] eqn:E2.
          + exists c2. apply lookup_resolve; auto. now constructor.
          + exists c'. apply lookup_resolve; auto. eapply lk_up; eauto. apply lookup_resolve; auto. lia. }
      destruct Hex. congruence. }
    assert (Hreq : forall j, under g (d_node d) j -> conflict_req rsat canon g1 j x p = Ok false).
    { intros j Hu. assert (Hj : j < size g) by (pose proof (under_lt _ Hp _ _ Hu); lia).
      unfold ResolverModel.conflict_req. unfold g1. rewrite pre_getn. destruct (Nat.eqb_spec j (size g)); [lia|].
      destruct (proj1 (getn_lt g j) Hj) as [nj Hnj]. rewrite Hnj.
      destruct (sget x (n_reqs nj)) as [[req t]|] eqn:Eq; [|auto].
      assert (Hrq : req_of g j x = Some (req, t)) by (unfold req_of; now rewrite Hnj).
      assert (Hw : asked x req) by (eapply orig_req; [exact HJ|exact Hj|exact Hrq]).
      rewrite (calm _ _ _ _ Hask Hw Han). reflexivity. }
    assert (Hcl : forall tgt, climb rsat canon g1 x (d_spec d) p None tgt (parents g1 (d_node d)) = Ok 0).
    { apply climb_all; auto.
      - unfold g1. rewrite pre_parent by auto. exact Hr0.
      - unfold g1. rewrite pre_size. lia.
      - eapply under_ext; [|exact Hu0]. intros j. unfold g1. apply pre_parent; auto.
      - intros j Hj. assert (Hj' : under g (d_node d) j).
        { eapply under_ext; [|exact Hj]. intros i. unfold g1. symmetry. apply pre_parent; auto. }
        split; [unfold ResolverModel.conflict_existing; now rewrite Hno1 | auto]. }
    rewrite Hcl in Hpl. cbn in Hpl. injection Hpl as <-.
    exists cn0. split; [auto|]. split; [rewrite <- Hx; apply place_upd; auto|]. split; [auto|].
    destruct (child_of g 0 x) as [c|] eqn:Ec; [exfalso|auto].
    assert (Hex0 : resolve_dep g1 0 x = Some c).
    { apply lookup_resolve; [auto | unfold g1; rewrite pre_size; lia|]. constructor. unfold g1. rewrite pre_child; auto. }
    rewrite Hno1 in Hex0; [discriminate|exact Hu0].
  Qed.
  Lemma top_reach s : reach root s -> topJ 0 (s_g s) (s_q s) (waiting s).
  Proof.
    intros Hs.
    destruct (reach_J rsat canon parse_dep lnode lnode_path lnode_manifest to_package deliver None 0 topJ)
      with (root := root) (pkg := pkg) (m := m) (name := name) (k := 0) (s := s) as (k' & _ & H); auto.
    - intros k g q q' P P' Hq HP [HJ HT]. split; [eapply orig_perm; eauto|exact HT].
    - intros k g q P d g' y I [HJ HT] Hsat. exists k. split; [lia|]. split; [eapply orig_sat; eauto|].
      destruct (satisfy_some _ _ _ _ _ _ Hsat) as (nx & Hr & Hy & Hss & ->).
      destruct (gi_P _ _ _ _ _ _ I d (or_introl eq_refl)) as (Hdn & _).
      set (e0 := mkEdge (d_node d) y (d_spec d) (d_type d)).
      destruct (link_dep_upd (mkGraph (g_nodes g) (g_edges g ++ [e0])) (d_node d) (d_name d) (length (g_edges g)))
        as [(Usz & Upar & Uch & Unm & Upk & Urq & Udp & Unr) Hed]; [exact Hdn|].
      intros i Hi Hn. rewrite Usz in Hi. rewrite Unm in Hn. rewrite Upar. exact (HT i Hi Hn).
    - intros k g q P d p m' tp g' ci I [HJ HT] Hsat Hpr Hpl. exists k. split; [lia|]. split; [eapply orig_place; eauto|].
      pose proof (ginv_parlt _ _ _ _ _ _ I) as Hp.
      destruct (gi_P _ _ _ _ _ _ I d (or_introl eq_refl)) as (Hdn & _).
      assert (HU : exists cn tgt, new_node (d_name d) p m' false = Ok cn /\ upd_place g d cn tgt g' /\ (d_name d = x -> tgt = 0)).
      { destruct (string_dec (d_name d) x) as [Hx|Hx].
        - destruct (top_place _ _ _ _ _ _ _ _ _ _ I HJ Hsat Hpr Hpl Hx) as (cn & Hcn & U & _). exists cn, 0. rewrite Hx. auto.
        - destruct (place_child_inv _ _ _ _ _ _ _ _ _ _ Hdn Hp Hpl) as (cn & tgt & Hcn & _ & U & _). exists cn, tgt. tauto. }
      destruct HU as (cn & tgt & Hcn & U & Hx). destruct U as (Usz & Hed & Upar & Uch & Unm & Upk & Urq & Udp & Unr).
      destruct (new_node_ok _ _ _ _ _ _ Hcn) as (Hnm & _).
      intros i Hi Hn. rewrite Usz in Hi. rewrite Unm in Hn. rewrite Upar. destruct (Nat.eqb_spec i (size g)) as [->|Hne].
      + rewrite Hnm in Hn. now rewrite (Hx Hn).
      + apply HT; [lia|exact Hn].
    - intros k g i q P n I [HJ HT] Hn. exists k. split; [lia|]. split; [eapply orig_pop; eauto|exact HT].
    - split; [apply orig_init|]. intros i Hi. unfold size in Hi; cbn in Hi. lia.
  Qed.

  Lemma top_paths s : reach root s -> forall i path, installed_at (s_g s) i (path ++ [x]) -> path = [] /\ child_of (s_g s) 0 x = Some i.
  Proof.
    intros Hs i path H. pose proof (reach_inv _ _ _ _ _ _ _ _ _ _ _ _ _ _ Hroot Hs) as [I _ _ _ _].
    destruct (top_reach s Hs) as [_ HT]. remember (path ++ [x]) as l eqn:El. destruct H as [|p path' y c H Hc].
    - destruct path; discriminate.
    - apply app_inj_tail in El. destruct El as [-> ->].
      destruct (gi_child _ _ _ _ _ _ I _ _ _ Hc) as (Hcs & Hcp & Hcn).
      assert (c <> 0). { intros ->. rewrite (proj2 (gi_root _ _ _ _ _ _ I)) in Hcp. discriminate. }
      rewrite (HT c) in Hcp; [injection Hcp as <-|lia|exact Hcn].
      destruct (installed_path _ _ _ _ _ _ I _ _ H) as [_ ->].
      rewrite node_path_root; [auto|eapply ginv_parlt; eauto | apply (gi_root _ _ _ _ _ _ I) | apply (gi_root _ _ _ _ _ _ I)].
  Qed.
End Top.

Section Same.
  Variable rsat : range -> version -> bool.
  Variable canon : string -> option string.
  Variable parse_dep : string -> string -> res err pspec.
  Variable lnode : Type.
  Variable lnode_path : lnode -> list string.
  Variable lnode_manifest : lnode -> manifest.
  Variable to_package : lnode -> res err (option package).
  Variable deliver : pspec -> outcome -> Prop.
  Variables (root : node) (pkg : package) (m : manifest) (name : string).
  Notation sat := (satisfies rsat canon).
  Notation new_node := (new_node parse_dep).
  Notation reach := (reach rsat canon parse_dep lnode lnode_path lnode_manifest to_package deliver None).
  Notation asked := (asked rsat canon parse_dep lnode lnode_manifest to_package deliver None root).
  Notation answers := (answers rsat canon lnode lnode_manifest to_package deliver None).
  Notation needs := (needs parse_dep).
  Hypothesis Hroot : new_node name pkg m true = Ok root.

  (** the requests for [x] that can come up do not conflict: they are all answered with one package, which satisfies them all *)
  Definition steady (x : string) : Prop :=
    (forall sp sp' p m', asked x sp -> asked x sp' -> answers x sp p m' -> sat (pk_resolved p) sp' = Ok true)
    /\ (forall sp sp' p p' m1 m1', asked x sp -> asked x sp' -> answers x sp p m1 -> answers x sp' p' m1' ->
          pk_resolved p = pk_resolved p' /\ m1 = m1').
  (** the project needs [x], through steady names only *)
  Inductive certain : string -> Prop :=
  | certain_root x sp t : sget x (n_reqs root) = Some (sp, t) -> certain x
  | certain_dep x sp p m' y sp' : certain x -> steady x -> asked x sp -> answers x sp p m' -> needs x p m' y sp' -> certain y.

  Lemma top_complete s : reach root s -> finished s = true -> forall x, certain x -> steady x -> exists c, child_of (s_g s) 0 x = Some c.
  Proof.
    intros Hs Hf.
    pose proof (reach_inv _ _ _ _ _ _ _ _ _ _ _ _ _ _ Hroot Hs) as SI.
    destruct (finished_nil _ _ _ _ SI Hf) as [Hq Hwt]. pose proof SI as [I _ _ _ _].
    destruct (orig_reach _ _ _ _ _ _ _ _ _ _ _ _ _ Hroot s Hs) as (H1 & H2 & H3 & _).
    assert (Hstep : forall i y sp' t, i < size (s_g s) -> req_of (s_g s) i y = Some (sp', t) -> steady y -> exists c, child_of (s_g s) 0 y = Some c).
    { intros i y sp' t Hi Hr [Hy _]. destruct (gi_all _ _ _ _ _ _ I i y (sp', t) Hi) as [Hd|(d & Hd & _)]; auto.
      - rewrite Hq. auto.
      - destruct (dep_of (s_g s) i y) as [ei|] eqn:Ed; [|congruence].
        destruct (gi_dep _ _ _ _ _ _ I _ _ _ Ed) as (e & He & Hfrom & Hreq & Hnm & Hnz & _).
        assert (Hto : e_to e < size (s_g s)). { apply nth_error_In in He. apply (gi_edge _ _ _ _ _ _ I _ He). }
        destruct (gi_par _ _ _ _ _ _ I (e_to e)) as (p & Hp & _ & Hc); [lia|].
        destruct (top_reach rsat canon parse_dep lnode lnode_path lnode_manifest to_package deliver root pkg m name Hroot y Hy s Hs) as [_ HT].
        rewrite (HT (e_to e)) in Hp; [|lia|exact Hnm]. injection Hp as <-. rewrite Hnm in Hc. eauto.
      - rewrite Hwt in Hd. destruct Hd. }
    intros x Hx. induction Hx as [x sp t Hr|x sp p m' y sp' Hx IH Hst Ha Hw Hn]; intros Hs'.
    - eapply (Hstep 0); [apply (gi_root _ _ _ _ _ _ I)| |exact Hs']. rewrite H2. eauto.
    - destruct (IH Hst) as [c Hc]. destruct (gi_child _ _ _ _ _ _ I _ _ _ Hc) as (Hcs & Hcp & Hcn).
      assert (c <> 0). { intros ->. rewrite (proj2 (gi_root _ _ _ _ _ _ I)) in Hcp. discriminate. }
      destruct (H1 c) as (sp2 & p2 & m2 & n2 & A & B & C & D & E); [lia|]. rewrite Hcn in *.
      destruct (proj2 Hst _ _ _ _ _ _ Ha A Hw B) as [_ <-]. destruct Hn as (n & t & Hn & Hy).
      destruct (new_node_reqs_indep _ _ x _ p2 _ _ _ Hn) as (n3 & Hn3 & Er3). rewrite D in Hn3. injection Hn3 as <-.
      eapply (Hstep c); [auto| |exact Hs']. rewrite E, Er3. eauto.
  Qed.

  Lemma top_same s s' : reach root s -> reach root s' -> finished s = true -> finished s' = true ->
    forall x, certain x -> steady x -> forall path r, tree_res (s_g s) (path ++ [x]) r -> tree_res (s_g s') (path ++ [x]) r.
  Proof.
    intros Hs Hs' Hf Hf' x Hx Hst path r (p & (i & n & Hi & Hn & Hp) & Hres).
    destruct (top_paths rsat canon parse_dep lnode lnode_path lnode_manifest to_package deliver root pkg m name Hroot x (proj1 Hst) s Hs i path Hi) as [-> Hc].
    destruct (top_complete s' Hs' Hf' x Hx Hst) as [c' Hc'].
    pose proof (reach_inv _ _ _ _ _ _ _ _ _ _ _ _ _ _ Hroot Hs) as [I _ _ _ _].
    pose proof (reach_inv _ _ _ _ _ _ _ _ _ _ _ _ _ _ Hroot Hs') as [I' _ _ _ _].
    destruct (orig_reach _ _ _ _ _ _ _ _ _ _ _ _ _ Hroot s Hs) as (H1 & _).
    destruct (orig_reach _ _ _ _ _ _ _ _ _ _ _ _ _ Hroot s' Hs') as (H1' & _).
    destruct (gi_child _ _ _ _ _ _ I _ _ _ Hc) as (Hcs & Hcp & Hcn).
    assert (i <> 0). { intros ->. rewrite (proj2 (gi_root _ _ _ _ _ _ I)) in Hcp. discriminate. }
    destruct (H1 i) as (sp & p1 & m1 & n1 & A & B & C & _); [lia|]. rewrite Hcn in *.
    destruct (gi_child _ _ _ _ _ _ I' _ _ _ Hc') as (Hcs' & Hcp' & Hcn').
    assert (c' <> 0). { intros ->. rewrite (proj2 (gi_root _ _ _ _ _ _ I')) in Hcp'. discriminate. }
    destruct (H1' c') as (sp' & p1' & m1' & n1' & A' & B' & C' & _); [lia|]. rewrite Hcn' in *.
    destruct (proj2 Hst _ _ _ _ _ _ A A' B B') as [Er _].
    unfold pkg_of in C, C'. rewrite Hn in C. injection C as C.
    destruct (getn (s_g s') c') as [nc|] eqn:Enc; [|discriminate]. injection C' as C'.
    exists p1'. split; [|congruence]. exists c', nc. repeat split; auto.
    econstructor; [constructor | auto].
  Qed.
End Same.
