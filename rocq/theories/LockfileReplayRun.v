(** * Whole runs of the resolver with the lockfile of an earlier run (C06) *)
From Verif Require Import Base Types ResolverModel ResolverProofs ResolverRun ResolverSpec ResolverThms ResolverSteps ResolverTerm ResolverFacts LockfileReplay.
From Coq Require Import Permutation.

Section World.
  Variable rsat : range -> version -> bool.
  Variable canon : string -> option string.
  Variable parse_dep : string -> string -> res err pspec.
  Variable lnode : Type.
  Variable lnode_path : lnode -> list string.
  Variable lnode_manifest : lnode -> manifest.
  Variable to_package : lnode -> res err (option package).
  Notation sat := (satisfies rsat canon).
  Notation reach := (reach rsat canon parse_dep lnode lnode_path lnode_manifest to_package).
  Notation steps := (steps rsat canon parse_dep lnode lnode_path lnode_manifest to_package).
  Notation exec := (exec rsat canon parse_dep lnode lnode_path lnode_manifest to_package).
  Notation process_deps := (process_deps rsat canon parse_dep lnode lnode_path lnode_manifest to_package).
  Notation records := (records parse_dep lnode lnode_path lnode_manifest to_package).
  Notation pinned := (pinned rsat canon).

  Variables (root : node) (pkg : package) (m : manifest) (name : string).
  Hypothesis Hroot : new_node parse_dep name pkg m true = Ok root.

  (** what a package asks for and is never changes once it is in the tree *)
  Lemma root_kept deliver lock s : reach deliver lock root s ->
    pkg_of (s_g s) 0 = Some (n_pkg root) /\ forall y, req_of (s_g s) 0 y = sget y (n_reqs root).
  Proof.
    intros Hs. induction Hs as [|s a s' Hs IH Hl He]; [split; reflexivity|].
    pose proof (reach_inv _ _ _ _ _ _ _ _ _ _ _ _ _ _ Hroot Hs) as SI.
    revert IH. change ((fun g g' => (pkg_of g 0 = Some (n_pkg root) /\ (forall y, req_of g 0 y = sget y (n_reqs root))) ->
      (pkg_of g' 0 = Some (n_pkg root) /\ (forall y, req_of g' 0 y = sget y (n_reqs root)))) (s_g s) (s_g s')).
    eapply (exec_R rsat canon parse_dep lnode lnode_path lnode_manifest to_package deliver lock); eauto.
    - intros g q P d g' x I E [H1 H2].
      destruct (satisfy_some _ _ _ _ _ _ E) as (nx & _ & _ & _ & ->).
      destruct (gi_P _ _ _ _ _ _ I d (or_introl eq_refl)) as (Hd & _).
      set (g1 := mkGraph (g_nodes g) (g_edges g ++ [mkEdge (d_node d) x (d_spec d) (d_type d)])) in *.
      destruct (link_dep_upd g1 (d_node d) (d_name d) (length (g_edges g)) Hd) as ((_ & _ & _ & _ & U5 & U6 & _) & _).
      split; [rewrite U5; exact H1 | intros y; rewrite U6; apply H2].
    - intros g q P d p m' tp g' ci I E Ep _ [H1 H2].
      destruct (gi_P _ _ _ _ _ _ I d (or_introl eq_refl)) as (Hd & _).
      destruct (place_child_inv _ _ _ _ _ _ _ _ _ _ Hd (ginv_parlt _ _ _ _ _ _ I) Ep) as (cn & tgt & _ & -> & U & _).
      destruct U as (_ & _ & _ & _ & _ & U6 & U7 & _). destruct (Nat.eqb_spec 0 (size g)); [lia|].
      split; [rewrite U6 | intros y; rewrite U7]; (destruct (Nat.eqb_spec 0 (size g)); [lia|]); auto.
  Qed.

  Variables (deliver0 deliver : pspec -> outcome -> Prop) (lock0 : option (lockpkgs lnode)) (s0 : st).
  Hypothesis Hs0 : reach deliver0 lock0 root s0.
  Hypothesis Hf0 : finished s0 = true.
  Variable lf : lockpkgs lnode.
  Hypothesis Hrec : records (s_g s0) lf.
  Hypothesis Hpin : pinned (s_g s0).
  Let G := s_g s0.

  Lemma IG : GInv rsat canon deliver0 G [] [].
  Proof.
    pose proof (reach_inv _ _ _ _ _ _ _ _ _ _ _ _ _ _ Hroot Hs0) as SI.
    destruct (finished_nil _ _ _ _ SI Hf0) as [Hq Hw]. destruct SI as [I _ _ _ _]. rewrite Hq, Hw in I. exact I.
  Qed.
  Notation SInv := (SInv rsat canon deliver).
  Notation Rel := (Rel G).

  Lemma replay_deps l : forall s todo phi, SInv s (l ++ todo) -> Rel (s_g s) phi ->
    exists s' phi', process_deps (Some lf) s l = Ok s' /\ Rel (s_g s') phi' /\ s_sink s' = s_sink s /\ s_fetches s' = s_fetches s
      /\ exists k, length (s_q s') = length (s_q s) + k /\ size (s_g s') = size (s_g s) + k.
  Proof.
    induction l as [|d l IH]; intros s todo phi SI R; cbn [ResolverModel.process_deps].
    - exists s, phi. repeat split; auto; try apply R. exists 0. lia.
    - cbn [app] in SI.
      destruct (replay_dep rsat canon parse_dep lnode lnode_path lnode_manifest to_package deliver0 G IG lf Hrec Hpin deliver s d (l ++ todo) phi SI R)
        as (s1 & phi1 & E1 & R1 & K1 & F1 & Z1).
      rewrite E1. cbn [rbind].
      pose proof (process_dep_inv _ _ _ _ _ _ _ _ _ _ _ _ _ SI E1) as SI1.
      destruct (IH s1 todo phi1 SI1 R1) as (s2 & phi2 & E2 & R2 & K2 & F2 & k & Z2 & Z3).
      exists s2, phi2. split; [auto|]. split; [auto|]. split; [congruence|]. split; [congruence|].
      destruct Z1 as [[Zq Zs]|(ci & Zq & Zs)].
      + exists k. rewrite <- Zq, <- Zs. auto.
      + exists (S k). rewrite Zq, app_length in Z2. cbn in Z2. lia.
  Qed.

  Lemma replay_pop s phi : SInv s [] -> waiting s = [] -> Rel (s_g s) phi -> forall a r, exec (Some lf) s a = Some r ->
    exists s' phi', r = Ok s' /\ Rel (s_g s') phi' /\ waiting s' = [] /\ S (length (s_q s)) + size (s_g s') = size (s_g s) + length (s_q s') + 2.
  Proof.
    intros SI Hw R a r E. destruct a as [|k res]; cbn [ResolverModel.exec] in E.
    - unfold pop_step in E. destruct (s_q s) as [|i q'] eqn:Eq; [discriminate|]. inversion E; subst r. clear E.
      destruct SI as [I C K Sp N]. rewrite Eq in I. cbn [app] in I.
      destruct (gi_q _ _ _ _ _ _ I) as [_ Hqi]. destruct (Hqi i (or_introl eq_refl)) as [Hi _].
      destruct (proj1 (getn_lt (s_g s) i) Hi) as [nd Hn]. rewrite Hn.
      set (s1 := mkSt (s_g s) q' (s_inflight s) (s_sink s) (s_fetches s)).
      assert (SI1 : SInv s1 (deps_of i nd ++ [])).
      { rewrite app_nil_r. split; auto. exact (GInv_pop _ _ _ _ _ _ _ _ I Hn). }
      destruct (replay_deps (deps_of i nd) s1 [] phi SI1 R) as (s2 & phi2 & E2 & R2 & K2 & F2 & k & Z2 & Z3).
      exists s2, phi2. split; [auto|]. split; [auto|]. unfold waiting in *. rewrite K2, F2. split; [exact Hw|].
      cbn [s_q s_g s1] in *. cbn [length]. lia.
    - exfalso. destruct (s_q s); [|discriminate]. rewrite (si_cnt _ _ _ _ _ SI), Hw in E. discriminate.
  Qed.

  Lemma rel_init : Rel (init_graph root) (fun i => i).
  Proof.
    destruct (root_kept _ _ _ Hs0) as [Hp Hq]. fold G in Hp, Hq. destruct (gi_root _ _ _ _ _ _ IG) as [Gz Gr].
    destruct (new_node_ok _ _ _ _ _ _ Hroot) as (N1 & N2 & N3 & N4 & N5 & N6).
    assert (Hz : forall i n, getn (init_graph root) i = Some n -> i = 0 /\ n = root).
    { intros [|[|i]] n; cbn; intros H; inversion H; auto. }
    split; auto.
    - cbn. intros. lia.
    - cbn. intros. lia.
    - intros i p. unfold pkg_of at 1. destruct (getn _ i) as [n|] eqn:E; [|discriminate]. destruct (Hz _ _ E) as [-> ->].
      intros H; inversion H; subst. exists (n_pkg root). auto.
    - intros i p Hi. unfold pkg_of. destruct (getn _ i) as [n|] eqn:E; [|discriminate]. destruct (Hz _ _ E) as [-> _]. lia.
    - intros i y Hi. unfold size in Hi. cbn in Hi. replace i with 0 by lia. cbn. symmetry. apply Hq.
    - intros i p. unfold parent_of at 1. destruct (getn _ i) as [n|] eqn:E; [|discriminate]. destruct (Hz _ _ E) as [-> ->]. rewrite N3. discriminate.
    - intros e [].
  Qed.

  Lemma replay_inv : forall n s, steps deliver (Some lf) root n s ->
    waiting s = [] /\ n + length (s_q s) = size (s_g s) /\ exists phi, Rel (s_g s) phi.
  Proof.
    induction 1 as [|n s a s' Hs IH Hl He].
    - split; [reflexivity|]. split; [reflexivity|]. exists (fun i => i). apply rel_init.
    - destruct IH as (Hw & Hn & phi & R).
      pose proof (reach_inv _ _ _ _ _ _ _ _ _ _ _ _ _ _ Hroot (steps_reach _ _ _ _ _ _ _ _ _ _ _ _ Hs)) as SI.
      destruct (replay_pop s phi SI Hw R a _ He) as (s2 & phi2 & E & R2 & Hw2 & Hk). injection E as <-.
      split; [auto|]. split; [|eauto].
      assert (length (s_q s) <> 0).
      { destruct a as [|k res]; cbn [ResolverModel.exec] in He.
        - unfold pop_step in He. destruct (s_q s); [discriminate|]. cbn. lia.
        - destruct (s_q s); [|discriminate]. rewrite (si_cnt _ _ _ _ _ SI), Hw in He. discriminate. }
      lia.
  Qed.

  Lemma NoDup_map_inj_in (A B : Type) (f : A -> B) (l : list A) :
    (forall a b, In a l -> In b l -> f a = f b -> a = b) -> NoDup l -> NoDup (map f l).
  Proof.
    intros Hf Hn. induction Hn as [|a l Ha Hn IH]; cbn; constructor.
    - intros H. apply in_map_iff in H. destruct H as (b & E & Hb). apply Ha.
      rewrite (Hf a b); auto; [now left | now right].
    - apply IH. intros; apply Hf; auto; now right.
  Qed.
  Lemma rel_size T phi : Rel T phi -> size T <= size G.
  Proof.
    intros R. rewrite <- (seq_length (size T) 0), <- (seq_length (size G) 0).
    rewrite <- (map_length phi (seq 0 (size T))). apply NoDup_incl_length.
    - apply (NoDup_map_inj_in nat nat); [|apply seq_NoDup].
      intros a b Ha Hb. apply in_seq in Ha, Hb. apply (r_inj _ _ _ R); lia.
    - intros c Hc. apply in_map_iff in Hc. destruct Hc as (i & <- & Hi). apply in_seq in Hi. apply in_seq.
      pose proof (r_lt _ _ _ R i ltac:(lia)). lia.
  Qed.

  Lemma rel_onto s phi : SInv s [] -> finished s = true -> Rel (s_g s) phi ->
    forall c, c < size G -> exists i, i < size (s_g s) /\ phi i = c.
  Proof.
    intros SI Hf R. destruct (finished_nil _ _ _ _ SI Hf) as [Hq Hw]. destruct SI as [I _ _ _ _].
    rewrite Hq, Hw in I. cbn [app] in I. destruct (gi_root _ _ _ _ _ _ I) as [Tz _].
    pose proof (ginv_parlt _ _ _ _ _ _ IG) as PG.
    pose proof (reach_created _ _ _ _ _ _ _ _ _ _ _ _ _ _ Hroot Hs0) as CG. fold G in CG.
    induction c as [c IH] using lt_wf_ind. intros Hc. destruct (Nat.eq_dec c 0) as [->|Hne].
    - exists 0. split; [lia | apply (r_root _ _ _ R)].
    - destruct (CG c ltac:(lia)) as (e & He & Eto & Efrom). destruct (IH _ Efrom ltac:(lia)) as (j & Hj & Ej).
      apply In_nth_error in He. destruct He as [ei Hei].
      destruct (gi_edep _ _ _ _ _ _ IG _ _ Hei) as [x Hx].
      destruct (gi_dep _ _ _ _ _ _ IG _ _ _ Hx) as (e' & He' & _ & Hreq & Hnm & _ & _). rewrite Hei in He'. injection He' as <-.
      pose proof Hreq as HreqT. rewrite <- Ej, <- (r_req _ _ _ R) in HreqT by auto.
      destruct (gi_all _ _ _ _ _ _ I j x _ Hj (fun H => H) HreqT) as [Hdep|(d & [] & _)].
      destruct (dep_of (s_g s) j x) as [et|] eqn:Ed; [|congruence].
      destruct (gi_dep _ _ _ _ _ _ I _ _ _ Ed) as (e2 & He2 & Hf2 & _ & Hn2 & _ & _).
      apply nth_error_In in He2. pose proof (r_edge _ _ _ R _ He2) as Hlk. rewrite Hn2, Hf2, Ej in Hlk.
      destruct (gi_edge _ _ _ _ _ _ I _ He2) as [_ Hto2]. exists (e_to e2). split; [auto|].
      apply (proj1 (req_declares _ _ _ _ _)) in Hreq. destruct (Hpin _ _ _ _ Hreq) as (c0 & Hl0 & Hv0 & _).
      destruct (linked_dep _ _ _ _ _ _ Hl0) as (ei0 & Hd0 & He0). unfold G in Hx. rewrite Hx in Hd0. injection Hd0 as <-.
      unfold G in Hei. rewrite Hei in He0. apply (f_equal (fun o => match o with Some e => e_to e | None => 0 end)) in He0.
      cbn [e_to] in He0. fold G in Hv0. apply (lookup_visible _ _ _ _ _ _ IG) in Hv0; [|lia].
      apply (lookup_resolve G PG) in Hv0; [|lia]. apply (lookup_resolve G PG) in Hlk; [|lia]. congruence.
  Qed.

  Lemma replay_same s phi : SInv s [] -> finished s = true -> Rel (s_g s) phi ->
    forall path r, tree_src (s_g s) path r <-> tree_src G path r.
  Proof.
    intros SI Hf R path r. pose proof (rel_onto s phi SI Hf R) as Honto. destruct SI as [I _ _ _ _].
    pose proof IG as IG'. split.
    - intros (p & (i & n & Hi & Hn & Hp) & Hr). destruct (installed_path _ _ _ _ _ _ I _ _ Hi) as [Hlt ->].
      rewrite (phi_path _ _ _ _ IG' _ _ _ _ _ I R _ Hlt).
      assert (Hpk : pkg_of (s_g s) i = Some p) by (unfold pkg_of; rewrite Hn; congruence).
      destruct (r_res _ _ _ R _ _ Hpk) as (p' & Hp' & Er). exists p'. split; [|congruence].
      unfold pkg_of in Hp'. destruct (getn G (phi i)) as [n'|] eqn:En; [|discriminate].
      exists (phi i), n'. split; [|split; [auto | congruence]]. eapply installed_all; eauto. now apply (r_lt _ _ _ R).
    - intros (p & (c & n & Hi & Hn & Hp) & Hr). destruct (installed_path _ _ _ _ _ _ IG' _ _ Hi) as [Hlt ->].
      destruct (Honto c Hlt) as (i & Hi' & <-). rewrite <- (phi_path _ _ _ _ IG' _ _ _ _ _ I R _ Hi').
      destruct (proj1 (getn_lt _ _) Hi') as [ni Hni].
      assert (Hpk : pkg_of (s_g s) i = Some (n_pkg ni)) by (unfold pkg_of; now rewrite Hni).
      destruct (r_res _ _ _ R _ _ Hpk) as (p' & Hp' & Er). unfold pkg_of in Hp'. rewrite Hn in Hp'. injection Hp' as <-.
      exists (n_pkg ni). split; [|congruence]. exists i, ni. split; [|split; auto]. eapply installed_all; eauto.
  Qed.

  (** the two trees also have the same dependencies and links *)
  Lemma rel_at s phi : SInv s [] -> Rel (s_g s) phi -> forall i path, installed_at (s_g s) i path -> i < size (s_g s) /\ installed_at G (phi i) path.
  Proof.
    intros [I _ _ _ _] R i path Hi. pose proof IG as IG'. destruct (installed_path _ _ _ _ _ _ I _ _ Hi) as [Hlt ->]. split; [exact Hlt|].
    rewrite (phi_path _ _ _ _ IG' _ _ _ _ _ I R _ Hlt). eapply installed_all; eauto. now apply (r_lt _ _ _ R).
  Qed.
  Lemma rel_at_back s phi : SInv s [] -> finished s = true -> Rel (s_g s) phi -> forall c path, installed_at G c path ->
    exists i, i < size (s_g s) /\ phi i = c /\ installed_at (s_g s) i path.
  Proof.
    intros SI Hf R c path Hc. pose proof IG as IG'. destruct (installed_path _ _ _ _ _ _ IG' _ _ Hc) as [Hlt ->].
    destruct (rel_onto s phi SI Hf R c Hlt) as (i & Hi & <-). exists i. destruct SI as [I _ _ _ _].
    split; [exact Hi|]. split; [reflexivity|]. rewrite <- (phi_path _ _ _ _ IG' _ _ _ _ _ I R _ Hi). eapply installed_all; eauto.
  Qed.
  Lemma rel_declares s phi : Rel (s_g s) phi -> forall i x sp t, i < size (s_g s) -> (declares (s_g s) i x sp t <-> declares G (phi i) x sp t).
  Proof. intros R i x sp t Hi. rewrite <- !req_declares. now rewrite (r_req _ _ _ R). Qed.

  Lemma rel_linked s phi : reach deliver (Some lf) root s -> Rel (s_g s) phi -> forall i x sp t k,
    linked (s_g s) i x sp t k -> i < size (s_g s) -> linked G (phi i) x sp t (phi k).
  Proof.
    intros Hs R i x sp t k Hl Hi. pose proof (reach_inv _ _ _ _ _ _ _ _ _ _ _ _ _ _ Hroot Hs) as SI. pose proof SI as [I _ _ _ _].
    destruct (links_ok _ _ _ _ _ _ _ _ _ _ _ _ _ Hroot _ Hs _ _ _ _ _ Hl) as [Hd _].
    apply (rel_declares s phi R) in Hd; [|exact Hi]. destruct (Hpin _ _ _ _ Hd) as (c & Hc & Hv & _).
    destruct (linked_dep _ _ _ _ _ _ Hl) as (ei & Hdep & He). destruct (gi_dep _ _ _ _ _ _ I _ _ _ Hdep) as (e' & He' & _ & _ & Hnm & _ & _).
    rewrite He in He'. injection He' as <-. cbn [e_to] in Hnm. apply nth_error_In in He. pose proof (r_edge _ _ _ R _ He) as Hlk. cbn [e_from e_to] in Hlk. rewrite Hnm in Hlk.
    pose proof (r_lt _ _ _ R i Hi) as Hlt. apply (lookup_visible _ _ _ _ _ _ IG) in Hv; [|exact Hlt].
    pose proof (ginv_parlt _ _ _ _ _ _ IG) as PG.
    apply (lookup_resolve G PG) in Hv; [|exact Hlt]. apply (lookup_resolve G PG) in Hlk; [|exact Hlt]. rewrite Hv in Hlk. injection Hlk as <-. exact Hc.
  Qed.

  Lemma replay_tree s phi : reach deliver (Some lf) root s -> finished s = true -> Rel (s_g s) phi -> same_tree (s_g s) G.
  Proof.
    intros Hs Hf R. pose proof (reach_inv _ _ _ _ _ _ _ _ _ _ _ _ _ _ Hroot Hs) as SI.
    split; [eapply replay_same; eauto|]. split.
    - intros path x sp t. split.
      + intros (i & Hi & Hd). destruct (rel_at s phi SI R _ _ Hi) as [Hlt Hi']. exists (phi i). split; [exact Hi'|]. now apply (rel_declares s phi R).
      + intros (c & Hc & Hd). destruct (rel_at_back s phi SI Hf R _ _ Hc) as (i & Hi & <- & Hat). exists i. split; [exact Hat|]. now apply (rel_declares s phi R).
    - intros path x sp t path'. split.
      + intros (i & k & Hi & Hl & Hk). destruct (rel_at s phi SI R _ _ Hi) as [Hlt Hi']. destruct (rel_at s phi SI R _ _ Hk) as [_ Hk'].
        exists (phi i), (phi k). split; [exact Hi'|]. split; [|exact Hk']. now apply rel_linked with (s := s).
      + intros (c & d & Hc & Hl & Hd). destruct (rel_at_back s phi SI Hf R _ _ Hc) as (i & Hi & <- & Hat).
        destruct (links_ok _ _ _ _ _ _ _ _ _ _ _ _ _ Hroot _ Hs0 _ _ _ _ _ Hl) as [Hdec _]. apply (rel_declares s phi R) in Hdec; [|exact Hi].
        destruct (complete _ _ _ _ _ _ _ _ _ _ _ _ _ Hroot _ Hs Hf _ _ _ _ Hdec) as (k & Hlk & _). exists i, k. split; [exact Hat|]. split; [exact Hlk|].
        pose proof (rel_linked s phi Hs R _ _ _ _ _ Hlk Hi) as Hl2. destruct (linked_dep _ _ _ _ _ _ Hl) as (e1 & D1 & E1). destruct (linked_dep _ _ _ _ _ _ Hl2) as (e2 & D2 & E2).
        fold G in D1, E1. rewrite D1 in D2. injection D2 as <-. rewrite E1 in E2. injection E2 as ->.
        pose proof IG as IG'. destruct (installed_path _ _ _ _ _ _ IG' _ _ Hd) as [_ ->]. pose proof SI as [I _ _ _ _].
        destruct (linked_dep _ _ _ _ _ _ Hlk) as (e3 & _ & E3). apply nth_error_In in E3. destruct (gi_edge _ _ _ _ _ _ I _ E3) as [_ Hto]. cbn [e_to] in Hto.
        rewrite <- (phi_path _ _ _ _ IG' _ _ _ _ _ I R _ Hto). eapply installed_all; eauto.
  Qed.

  Theorem replay : forall n s, steps deliver (Some lf) root n s ->
    waiting s = [] /\ n <= size G
    /\ (forall a r, exec (Some lf) s a = Some r -> exists s', r = Ok s')
    /\ (forall i nd, getn (s_g s) i = Some nd -> i <> 0 -> pk_name (n_pkg nd) = name_of (s_g s) i)
    /\ (finished s = true -> same_tree (s_g s) G).
  Proof.
    intros n s Hs. destruct (replay_inv n s Hs) as (Hw & Hn & phi & R).
    pose proof (steps_reach _ _ _ _ _ _ _ _ _ _ _ _ Hs) as Hr.
    pose proof (reach_inv _ _ _ _ _ _ _ _ _ _ _ _ _ _ Hroot Hr) as SI.
    split; [auto|]. split; [pose proof (rel_size _ _ R); lia|]. split; [|split].
    - intros a r E. destruct (replay_pop s phi SI Hw R a _ E) as (s2 & _ & -> & _). eauto.
    - intros i nd Hnd Hi. apply (r_pname _ _ _ R i); [lia|]. unfold pkg_of. now rewrite Hnd.
    - intros Hf. eapply replay_tree; eauto.
  Qed.
End World.
