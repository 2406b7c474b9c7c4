(** * The lockfile orogene writes for a tree, read back, records that tree (C06) *)
From Verif Require Import Base Types Kdl ResolverModel ResolverProofs ResolverRun ResolverSpec ResolverThms ResolverSteps ResolverTerm
  ResolverFacts ResolverDecl LockfileModel LockfileSpec LockfileProofs LockfileGraph LockfileFacts LockfileReplay LockfileReplayRun.
From Coq Require Import Permutation.
Open Scope string_scope.
Open Scope list_scope.

(** The lockfile as [run_resolver] uses it (crates/node-maintainer/src/resolver.rs:303-344): looked up by the path of a package.
    [view_get] below shows that looking up the list of names here is looking up their "/node_modules/"-joined text there. *)
Definition entry_path (ln : lnode) : list string := map ufold (l_path ln).
Definition lock_view (lf : lockfile) : lockpkgs lnode := map (fun e => (entry_path (snd e), snd e)) (lf_packages lf).

(** every entry is stored under the joined text of its path, and its path is made of package names *)
Definition keyed_by_path (lf : lockfile) : Prop :=
  NoDup (map (fun e => ufold (fst e)) (lf_packages lf))
  /\ forall k ln, In (k, ln) (lf_packages lf) -> ufold k = path_key (entry_path ln) /\ entry_path ln <> [] /\ Forall valid_name (entry_path ln).

Lemma lpath_eqb_spec a b : lpath_eqb a b = true <-> a = b.
Proof. apply (list_eqb_spec _ _ seqb_spec). Qed.

Lemma view_get lf : keyed_by_path lf -> forall path, path <> [] -> Forall valid_name path -> map ufold path = path ->
  aget lpath_eqb path (lock_view lf) = aget ueqb (path_key path) (lf_packages lf).
Proof.
  intros [_ H] path Hne Hv Hf. unfold lock_view.
  assert (Hk : ufold (path_key path) = path_key path).
  { apply ufold_path_key. intros x Hx. clear -Hf Hx. induction path as [|a t IH]; [destruct Hx|].
    cbn in Hf. injection Hf as E1 E2. destruct Hx as [->|Hx]; auto. }
  induction (lf_packages lf) as [|[k ln] t IH]; [reflexivity|]. cbn [map aget fst snd].
  assert (Ht : forall k ln, In (k, ln) t -> ufold k = path_key (entry_path ln) /\ entry_path ln <> [] /\ Forall valid_name (entry_path ln)) by (intros; apply H; now right).
  destruct (H k ln (or_introl eq_refl)) as (E & Hne' & Hv').
  destruct (lpath_eqb path (entry_path ln)) eqn:E1; destruct (ueqb (path_key path) k) eqn:E2; auto.
  - apply lpath_eqb_spec in E1. exfalso. assert (ueqb (path_key path) k = true); [|congruence].
    apply ueqb_spec. rewrite Hk, E, E1. reflexivity.
  - apply ueqb_spec in E2. rewrite Hk, E in E2. apply path_key_inj in E2; auto. subst path.
    exfalso. assert (lpath_eqb (entry_path ln) (entry_path ln) = true) by now apply lpath_eqb_spec. congruence.
Qed.

Section View.
  Variable rsat : range -> version -> bool.
  Variable canon : string -> option string.
  Variable parse_dep : string -> string -> res err pspec.
  Variable requested : pspec -> string.
  Variable gitshow : gitinfo -> string.
  Variable vshow : version -> string.
  Variable vparse : string -> option version.
  Variable iparse : string -> option string.
  Variable to_pkg : lnode -> res err (option package).
  Variable deliver0 : pspec -> outcome -> Prop.
  Variable lock0 : option (lockpkgs lnode).
  Notation reach0 := (reach rsat canon parse_dep lnode entry_path lnode_manifest to_pkg deliver0 lock0).
  Notation entry := (entry requested gitshow).

  Variables (root : node) (pkg : package) (m : manifest) (name : string).
  Hypothesis Hroot : new_node parse_dep name pkg m true = Ok root.
  Variable s : st.
  Hypothesis Hs : reach0 root s.
  Hypothesis Hfin : finished s = true.
  Hypothesis Hv : forall i n nm v u o, getn (s_g s) i = Some n -> pk_resolved (n_pkg n) = RNpm nm v u o -> vparse (vshow v) = Some v.
  Hypothesis Hval : forall i, 0 < i < size (s_g s) -> valid_name (name_of (s_g s) i).
  Hypothesis Hint : forall i n nm v u integ, getn (s_g s) i = Some n -> pk_resolved (n_pkg n) = RNpm nm v u (Some integ) -> iparse integ = Some integ.
  Let g := s_g s.

  Lemma path_folded i : i < size g -> map ufold (node_path g i) = node_path g i.
  Proof.
    intros Hi. assert (H : forall x, In x (node_path g i) -> ufold x = x).
    { intros x Hx. apply (path_Q rsat canon parse_dep lnode entry_path lnode_manifest to_pkg deliver0 lock0 (fun x => ufold x = x)) with (root := root) (pkg := pkg) (m := m) (name := name) (s := s) (i := i); auto.
      intros nm str sp E. apply ufold_idem. }
    induction (node_path g i) as [|a t IH]; [reflexivity|]. cbn. rewrite H by now left. rewrite IH; [reflexivity|]. intros; apply H; now right.
  Qed.

  (** the entries, exactly *)
  Lemma graph_wf : exists lf, to_lockfile requested gitshow g = Ok lf /\ wf_lockfile vshow vparse iparse lf
    /\ lf_packages lf = map (fun i => (path_key (node_path g i), entry g i)) (rest g).
  Proof.
    pose proof (reach_inv _ _ _ _ _ _ _ _ _ _ _ _ _ _ Hroot Hs) as SI. pose proof SI as [I _ _ _ _].
    destruct (gi_root _ _ _ _ _ _ I) as [Hz Hr0]. pose proof (ginv_parlt _ _ _ _ _ _ I) as Hp.
    destruct (lockfile_complete rsat canon parse_dep lnode entry_path lnode_manifest to_pkg deliver0 lock0 requested gitshow root pkg m name Hroot s Hs Hval)
      as (lf & E & Hlen & Hnd & D0 & D1 & Dk).
    pose proof (reach_nodup _ _ _ _ _ _ _ _ _ _ _ _ _ _ Hroot Hs) as Hdn.
    destruct (keys_ok_graph requested gitshow (s_g s) lf Hdn E) as [Hko Hir].
    assert (Epk : lf_version lf = 1%N /\ lf_packages lf = keyed (map (entry g) (rest g))).
    { destruct (proj1 (getn_lt g 0) Hz) as [n0 Hn0]. destruct (node_lnode_ok requested gitshow g 0 true n0 Hn0) as (r & Er & _).
      pose proof (to_lockfile_eq requested gitshow g r Hz Er) as E2. unfold g in E2 at 1. rewrite E in E2. injection E2 as ->. split; reflexivity. }
    destruct Epk as [Ev Epk].
    assert (Ekeyed : keyed (map (entry g) (rest g)) = map (fun i => (path_key (node_path g i), entry g i)) (rest g)).
    { rewrite keyed_eq.
      - rewrite map_map. apply map_ext_in. intros i Hi. apply rest_in in Hi.
        rewrite (proj2 (entry_eq requested gitshow g i ltac:(lia))). reflexivity.
      - assert (Hinj : forall i j, In i (rest g) -> In j (rest g) ->
          ufold (path_key (l_path (entry g i))) = ufold (path_key (l_path (entry g j))) -> i = j).
        { intros i j Hi Hj Ek. apply rest_in in Hi, Hj.
          rewrite (proj2 (entry_eq requested gitshow g i ltac:(lia))), (proj2 (entry_eq requested gitshow g j ltac:(lia))) in Ek.
          assert (Hfo : forall i, 0 < i < size g -> ufold (path_key (node_path g i)) = path_key (node_path g i)).
          { intros a Ha. apply ufold_path_key. intros x Hx.
            apply (path_Q rsat canon parse_dep lnode entry_path lnode_manifest to_pkg deliver0 lock0 (fun x => ufold x = x)) with (root := root) (pkg := pkg) (m := m) (name := name) (s := s) (i := a); auto; [|fold g; lia].
            intros nm str sp _. apply ufold_idem. }
          rewrite (Hfo i Hi), (Hfo j Hj) in Ek.
          assert (Hvp : forall i, 0 < i < size g -> Forall valid_name (node_path g i)).
          { intros a Ha. apply Forall_forall. intros x Hx. eapply (path_valid rsat canon deliver0 g _ _ I Hval a); eauto. lia. }
          assert (Hpn : forall i, 0 < i < size g -> node_path g i <> []).
          { intros a Ha. eapply (path_nonempty rsat canon parse_dep lnode entry_path lnode_manifest to_pkg deliver0 lock0); eauto. }
          apply (path_key_inj _ _ (Hvp i Hi) (Hvp j Hj) (Hpn i Hi) (Hpn j Hj)) in Ek.
          eapply node_path_inj; eauto; fold g; lia. }
        rewrite map_map. apply NoDup_map_inj_in; [exact Hinj | apply rest_nodup]. }
    exists lf. split; [exact E|]. split; [|congruence].
    assert (Hvals : forall i ln, describes requested gitshow (s_g s) i ln -> values_ok vshow vparse iparse ln).
    { intros i ln (n & En & _ & _ & Hr & _). split.
      { intros v Ev'. destruct (pk_resolved (n_pkg n)) as [nm w u o| |] eqn:Er; destruct Hr as (Hw & _); try congruence.
        assert (w = v) as -> by congruence. eapply Hv; eauto. }
      intros ig Eg.
      destruct (pk_resolved (n_pkg n)) as [nm w u o| |] eqn:Er; destruct Hr as (_ & _ & Hi); try congruence.
      subst. rewrite Eg in Er. eapply Hint; eauto. }
    constructor; auto.
    - rewrite Ev. reflexivity.
    - split; [eauto|]. intros k n Hin. destruct (Dk k n Hin) as (i & _ & _ & D). eauto.
    - intros k n Hin. rewrite Epk, Ekeyed in Hin. apply in_map_iff in Hin. destruct Hin as (i & Ei & Hi). injection Ei as <- <-.
      apply rest_in in Hi. destruct (entry_eq requested gitshow g i ltac:(lia)) as [E1 E2]. rewrite E2. split; [reflexivity|]. split.
      + unfold node_lnode in E1. destruct (getn g i); [|discriminate]. injection E1 as E1. rewrite <- E1. reflexivity.
      + eapply path_nonempty; eauto.
  Qed.

  (** ... and after writing and reading *)
  Lemma read_back : exists lf lf', to_lockfile requested gitshow g = Ok lf /\ from_kdl vparse iparse (to_kdl vshow lf) = Ok lf'
    /\ keyed_by_path lf'
    /\ Permutation (lf_packages lf') (map (fun i => (path_key (node_path g i), norm (entry g i))) (rest g)).
  Proof.
    pose proof (reach_inv _ _ _ _ _ _ _ _ _ _ _ _ _ _ Hroot Hs) as SI. pose proof SI as [I _ _ _ _].
    destruct graph_wf as (lf & E & W & Ep). exists lf. eexists. split; [exact E|]. split; [apply codec_exact; exact W|].
    cbn [lf_packages].
    assert (HP : Permutation (map (fun e => (path_key (l_path (snd e)), norm (snd e))) (sort_pkgs (lf_packages lf)))
                             (map (fun i => (path_key (node_path g i), norm (entry g i))) (rest g))).
    { etransitivity; [apply Permutation_map; apply ssort_perm|]. rewrite Ep, map_map. cbn [snd].
      erewrite map_ext_in; [reflexivity|].
      intros i Hi. apply rest_in in Hi. rewrite (proj2 (entry_eq requested gitshow g i ltac:(lia))). reflexivity. }
    split; [|exact HP]. split; cbn [lf_packages].
    - eapply NoDup_perm_map; [symmetry; exact HP|]. pose proof (wf_keys _ _ _ _ W) as (Hn & _). rewrite Ep in Hn.
      rewrite map_map in *. cbn [fst] in *. exact Hn.
    - intros k ln Hin. apply (Permutation_in _ HP) in Hin. apply in_map_iff in Hin. destruct Hin as (i & Ei & Hi). injection Ei as <- <-.
      apply rest_in in Hi. assert (Epath : entry_path (norm (entry g i)) = node_path g i).
      { unfold entry_path, norm. cbn [l_path]. rewrite (proj2 (entry_eq requested gitshow g i ltac:(lia))). apply path_folded. lia. }
      rewrite Epath. split; [|split].
      + apply ufold_path_key. intros x Hx.
        apply (path_Q rsat canon parse_dep lnode entry_path lnode_manifest to_pkg deliver0 lock0 (fun x => ufold x = x)) with (root := root) (pkg := pkg) (m := m) (name := name) (s := s) (i := i); auto; [|fold g; lia].
        intros nm str sp _. apply ufold_idem.
      + eapply path_nonempty; eauto.
      + apply Forall_forall. intros x Hx. eapply (path_valid rsat canon deliver0 g _ _ I Hval i); eauto. lia.
  Qed.

  (** ** the manifest of an entry asks for what the package declares *)
  Hypothesis Hparse : forall i x sp t, declares g i x sp t -> parse_dep x (requested sp) = Ok sp.

  Lemma last_entry_sget x l : (forall e, In e l -> ufold (fst e) = fst e) -> NoDup (map fst l) ->
    last_entry x l = option_map (fun str => (x, str)) (sget x l).
  Proof.
    intros Hf Hn. induction l as [|[k v] l IH]; [reflexivity|]. cbn [last_entry map fst] in *.
    inversion Hn as [|? ? Hni Hn']; subst. rewrite IH; [|intros; apply Hf; now right|auto].
    pose proof (Hf (k, v) (or_introl eq_refl)) as Hk. cbn [fst] in Hk. rewrite Hk.
    replace (sget x ((k, v) :: l)) with (if String.eqb x k then Some v else sget x l) by reflexivity.
    rewrite (String.eqb_sym k x). destruct (String.eqb x k) eqn:E.
    - apply seqb_spec in E. subst k. assert (sget x l = None) as -> by (apply aget_None; [apply seqb_spec | exact Hni]). reflexivity.
    - destruct (sget x l); reflexivity.
  Qed.

  Lemma add_reqs_total l t : (forall nm str, In (nm, str) l -> exists sp, parse_dep nm str = Ok sp) ->
    forall acc, exists r, add_reqs parse_dep l t acc = Ok r.
  Proof.
    induction l as [|[nm str] l IH]; intros H acc; cbn [add_reqs]; [eauto|].
    destruct (H nm str (or_introl eq_refl)) as [sp ->]. cbn [rbind]. apply IH. intros; eapply H; right; eauto.
  Qed.

  Lemma entry_reqs i : 0 < i < size g -> forall p, exists n, new_node parse_dep (name_of g i) p (lnode_manifest (norm (entry g i))) false = Ok n
    /\ forall y sp t, sget y (n_reqs n) = Some (sp, t) <-> declares g i y sp t.
  Proof.
    intros Hi p. set (ln := entry g i).
    destruct (entry_eq requested gitshow g i ltac:(lia)) as [E1 E2]. fold ln in E1, E2.
    assert (D : describes requested gitshow g i ln).
    { eapply (entry_describes rsat canon parse_dep lnode entry_path lnode_manifest to_pkg deliver0 lock0 requested gitshow root pkg m name Hroot s Hs); eauto. fold g; lia. }
    destruct D as (nd & En & _ & _ & _ & Hsec).
    pose proof (reach_nodup _ _ _ _ _ _ _ _ _ _ _ _ _ _ Hroot Hs) as Hdn.
    pose proof (node_lnode_deps_ok requested gitshow g i false ln Hdn E1) as (Nd & _ & _ & No).
    assert (Hdecl : forall t x sp c, linked g i x sp t c -> declares g i x sp t).
    { intros t x sp c Hl. eapply (links_ok rsat canon parse_dep lnode entry_path lnode_manifest to_pkg deliver0 lock0 root pkg m name Hroot s Hs); eauto. }
    assert (Hlink : forall t x sp, declares g i x sp t -> exists c, linked g i x sp t c).
    { intros t x sp Hd. destruct (ResolverFacts.complete rsat canon parse_dep lnode entry_path lnode_manifest to_pkg deliver0 lock0 root pkg m name Hroot s Hs Hfin i x sp t Hd) as (c & Hc & _). eauto. }
    assert (Hfoldx : forall x sp t, declares g i x sp t -> ufold x = x).
    { intros x sp t Hd. apply (proj2 (req_declares _ _ _ _ _)) in Hd.
      eapply (reqs_Q rsat canon parse_dep lnode entry_path lnode_manifest to_pkg deliver0 lock0 (fun x => ufold x = x)) with (root := root) (pkg := pkg) (m := m) (name := name) (s := s); eauto.
      intros nm str sp' _. apply ufold_idem. }
    (* one section, as sorted by the writer *)
    assert (Hone : forall t l, l = section_of t ln -> NoDup (map fst l) ->
       (forall nm str, In (nm, str) (sort_deps l) -> exists sp c, linked g i nm sp t c /\ str = requested sp)
       /\ NoDup (map fst (sort_deps l)) /\ (forall x, sget x (sort_deps l) = sget x l)).
    { intros t l -> Hnd. split; [|split].
      - intros nm str Hin. apply (Permutation_in _ (ssort_perm _ _ _)) in Hin.
        apply Hsec. apply In_aget; [apply seqb_spec | exact Hnd | exact Hin].
      - now apply sort_deps_NoDup.
      - intros x. now apply same_map_sort. }
    destruct (Hone Prod (l_deps ln) eq_refl Nd) as (A1 & A2 & A3). destruct (Hone Opt (l_opt ln) eq_refl No) as (B1 & B2 & B3).
    assert (Hfold : forall t l, (forall nm str, In (nm, str) l -> exists sp c, linked g i nm sp t c /\ str = requested sp) -> forall e, In e l -> ufold (fst e) = fst e).
    { intros t l H [nm str] He. destruct (H nm str He) as (sp & c & Hl & _). cbn. eauto. }
    assert (Htot : forall t l, (forall nm str, In (nm, str) l -> exists sp c, linked g i nm sp t c /\ str = requested sp) -> forall nm str, In (nm, str) l -> exists sp, parse_dep nm str = Ok sp).
    { intros t l H nm str He. destruct (H nm str He) as (sp & c & Hl & ->). exists sp. eapply Hparse. eauto. }
    assert (Hnew : exists n, new_node parse_dep (name_of g i) p (lnode_manifest (norm ln)) false = Ok n).
    { unfold new_node, lnode_manifest, norm. cbn [m_deps m_opt l_deps l_opt].
      destruct (add_reqs_total (sort_deps (l_deps ln)) Prod (Htot _ _ A1) []) as [r1 ->]. cbn [rbind].
      destruct (add_reqs_total (sort_deps (l_opt ln)) Opt (Htot _ _ B1) r1) as [r2 ->]. cbn [rbind]. eauto. }
    destruct Hnew as [n Hn]. exists n. split; [exact Hn|].
    intros y sp t. rewrite (new_node_asks _ _ _ _ _ _ Hn y sp t). unfold asks, lnode_manifest, norm. cbn [m_deps m_opt m_dev l_deps l_opt l_dev].
    assert (LA : last_entry y (sort_deps (l_deps ln)) = option_map (fun str => (y, str)) (sget y (l_deps ln))).
    { rewrite last_entry_sget; [now rewrite A3 | eapply Hfold; exact A1 | exact A2]. }
    assert (LB : last_entry y (sort_deps (l_opt ln)) = option_map (fun str => (y, str)) (sget y (l_opt ln))).
    { rewrite last_entry_sget; [now rewrite B3 | eapply Hfold; exact B1 | exact B2]. }
    rewrite LA, LB.
    assert (Hget : forall t' txt, sget y (section_of t' ln) = Some txt <-> exists sp c, linked g i y sp t' c /\ txt = requested sp) by (intros; apply Hsec).
    assert (Huniq : forall sp1 t1 sp2 t2, declares g i y sp1 t1 -> declares g i y sp2 t2 -> sp1 = sp2 /\ t1 = t2).
    { intros sp1 t1 sp2 t2 (n1 & H1 & H1') (n2 & H2 & H2'). rewrite H1 in H2. injection H2 as <-. rewrite H1' in H2'. injection H2' as -> ->. auto. }
    split.
    - intros (nm & str & Hp & H). destruct t; [| | destruct H |].
      + destruct H as (_ & _ & H). destruct (sget y (l_deps ln)) as [txt|] eqn:Eg; [|discriminate]. injection H as <- <-.
        apply (Hget Prod) in Eg. destruct Eg as (sp' & c & Hl & ->). apply Hdecl in Hl. rewrite (Hparse _ _ _ _ Hl) in Hp. congruence.
      + destruct H as (H & _). discriminate.
      + destruct H as (_ & H). destruct (sget y (l_opt ln)) as [txt|] eqn:Eg; [|discriminate]. injection H as <- <-.
        apply (Hget Opt) in Eg. destruct Eg as (sp' & c & Hl & ->). apply Hdecl in Hl. rewrite (Hparse _ _ _ _ Hl) in Hp. congruence.
    - intros Hd. exists y, (requested sp). split; [eauto|].
      destruct (declared_manifest rsat canon parse_dep lnode entry_path lnode_manifest to_pkg deliver0 lock0 root pkg m name Hroot s Hs) as [_ Hdm].
      destruct (Hdm i nd En ltac:(lia)) as (m' & _ & Hm). pose proof (proj1 (Hm _ _ _) Hd) as (nm & str & _ & Hcase).
      destruct (Hlink _ _ _ Hd) as [c Hc].
      assert (Hsome : sget y (section_of t ln) = Some (requested sp)) by (apply Hget; eauto).
      destruct t; [| | destruct Hcase |].
      + split; [discriminate|]. cbn in Hsome. rewrite Hsome. split; [|reflexivity].
        destruct (sget y (l_opt ln)) as [txt|] eqn:Eg; [exfalso|reflexivity].
        apply (Hget Opt) in Eg. destruct Eg as (sp' & c' & Hl & ->). apply Hdecl in Hl. destruct (Huniq _ _ _ _ Hd Hl) as [_ Ht]. discriminate.
      + destruct Hcase as (Hf & _). discriminate.
      + split; [discriminate|]. cbn in Hsome. rewrite Hsome. reflexivity.
  Qed.

  (** what [to_package] makes of an entry that has been read back *)
  Hypothesis Hpkg : forall i n, getn g i = Some n -> i <> 0 -> exists p, to_pkg (norm (entry g i)) = Ok (Some p) /\ source (pk_resolved p) = source (pk_resolved (n_pkg n)) /\ pk_name p = name_of g i.

  Lemma view_records lf' : keyed_by_path lf' ->
    Permutation (lf_packages lf') (map (fun i => (path_key (node_path g i), norm (entry g i))) (rest g)) ->
    records parse_dep lnode entry_path lnode_manifest to_pkg g (lock_view lf').
  Proof.
    intros KP HP. pose proof (reach_inv _ _ _ _ _ _ _ _ _ _ _ _ _ _ Hroot Hs) as SI. pose proof SI as [I _ _ _ _].
    pose proof (ginv_parlt _ _ _ _ _ _ I) as Hp. destruct (gi_root _ _ _ _ _ _ I) as [Hz Hr0].
    assert (Epath : forall i, 0 < i < size g -> entry_path (norm (entry g i)) = node_path g i).
    { intros i Hi. unfold entry_path, norm. cbn [l_path]. rewrite (proj2 (entry_eq requested gitshow g i ltac:(lia))). apply path_folded. lia. }
    assert (Hin : forall path ln, In (path, ln) (lock_view lf') <-> exists i, 0 < i < size g /\ path = node_path g i /\ ln = norm (entry g i)).
    { intros path ln. unfold lock_view. rewrite in_map_iff. split.
      - intros ((k & ln') & E & Hk). injection E as <- <-. cbn [snd] in *. apply (Permutation_in _ HP) in Hk.
        apply in_map_iff in Hk. destruct Hk as (i & E & Hi). injection E as <- <-. apply rest_in in Hi. exists i. split; [auto|]. split; [now apply Epath | auto].
      - intros (i & Hi & -> & ->). exists (path_key (node_path g i), norm (entry g i)). cbn [snd]. split; [now rewrite Epath|].
        apply (Permutation_in _ (Permutation_sym HP)). apply in_map_iff. exists i. split; [reflexivity | now apply rest_in]. }
    assert (Hget : forall i, 0 < i < size g -> aget lpath_eqb (node_path g i) (lock_view lf') = Some (norm (entry g i))).
    { intros i Hi. destruct (aget lpath_eqb (node_path g i) (lock_view lf')) as [ln|] eqn:E.
      - apply aget_In in E; [|apply lpath_eqb_spec]. apply Hin in E. destruct E as (j & Hj & Ej & ->).
        assert (i = j) by (eapply node_path_inj; eauto; fold g; lia). now subst.
      - exfalso. apply aget_None in E; [|apply lpath_eqb_spec]. apply E. apply in_map_iff.
        exists (node_path g i, norm (entry g i)). split; [reflexivity|]. apply Hin. eauto. }
    split.
    - intros c path x Hat. destruct (installed_path _ _ _ _ _ _ I _ _ Hat) as [Hc Epc]. fold g in Hc, Epc.
      assert (Hc0 : c <> 0).
      { intros ->. rewrite node_path_root in Epc by auto. destruct path; discriminate. }
      destruct (proj1 (getn_lt g c) Hc) as [n Hn].
      destruct (Hpkg c n Hn Hc0) as (p & Hto & Hres & Hpn).
      destruct (entry_reqs c ltac:(lia) p) as (n' & Hn' & Hreq).
      assert (Ex : x = name_of g c).
      { destruct (gi_par _ _ _ _ _ _ I c ltac:(fold g; lia)) as (pp & Hpp & _). rewrite (node_path_step g Hp c pp Hc Hc0 Hpp) in Epc.
        apply app_inj_tail in Epc. tauto. }
      exists (norm (entry g c)), p, n', (pk_resolved (n_pkg n)). rewrite Epc. split; [apply Hget; lia|]. split; [apply Epath; lia|].
      split; [exact Hto|]. split; [exists n; auto|]. rewrite Ex. split; [split; [exact Hres|exact Hpn]|]. split; [exact Hn' | exact Hreq].
    - intros path ln E. apply aget_In in E; [|apply lpath_eqb_spec]. apply Hin in E. destruct E as (i & Hi & -> & _).
      exists i. eapply installed_all; eauto. fold g; lia.
  Qed.

  Hypothesis Hpin : pinned rsat canon g.
  Lemma replay_lockfile : exists lf lf', to_lockfile requested gitshow g = Ok lf /\ from_kdl vparse iparse (to_kdl vshow lf) = Ok lf'
    /\ keyed_by_path lf' /\ Permutation (lf_packages lf') (map (fun i => (path_key (node_path g i), norm (entry g i))) (rest g))
    /\ forall deliver n s', steps rsat canon parse_dep lnode entry_path lnode_manifest to_pkg deliver (Some (lock_view lf')) root n s' ->
         waiting s' = [] /\ n <= size g
         /\ (forall a r, exec rsat canon parse_dep lnode entry_path lnode_manifest to_pkg (Some (lock_view lf')) s' a = Some r -> exists s'', r = Ok s'')
         /\ (forall i nd, getn (s_g s') i = Some nd -> i <> 0 -> pk_name (n_pkg nd) = name_of (s_g s') i)
         /\ (finished s' = true -> same_tree (s_g s') g).
  Proof.
    destruct read_back as (lf & lf' & E & E' & KP & HP). exists lf, lf'. split; [exact E|]. split; [exact E'|]. split; [exact KP|]. split; [exact HP|].
    intros deliver n s' Hst. eapply (replay rsat canon parse_dep lnode entry_path lnode_manifest to_pkg root pkg m name Hroot deliver0 deliver lock0 s Hs Hfin (lock_view lf')); eauto.
    now apply view_records.
  Qed.
End View.
