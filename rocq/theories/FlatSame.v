(** * Without version conflicts two finished resolutions have the same tree, links included (C05) *)
From Verif Require Import Base Types ResolverModel ResolverProofs ResolverRun ResolverSpec ResolverThms ResolverTerm ResolverFacts
  LockfileReplay.
Open Scope string_scope.
Open Scope list_scope.

Section Flat.
  Variable rsat : range -> version -> bool.
  Variable canon : string -> option string.
  Variable parse_dep : string -> string -> res err pspec.
  Variable lnodeT : Type.
  Variable lpath : lnodeT -> list string.
  Variable lman : lnodeT -> manifest.
  Variable to_pkg : lnodeT -> res err (option package).
  Variable deliver : pspec -> outcome -> Prop.
  Notation reach := (reach rsat canon parse_dep lnodeT lpath lman to_pkg deliver None).
  Variables (root : node) (pkg : package) (m : manifest) (name : string).
  Hypothesis Hroot : new_node parse_dep name pkg m true = Ok root.
  Notation wanted := (wanted parse_dep deliver root).
  Hypothesis compat : forall x sp sp' p m', wanted x sp -> wanted x sp' -> deliver sp (Ok (p, m')) ->
    satisfies rsat canon (pk_resolved p) sp' = Ok true.
  Hypothesis same : forall x sp sp' p p' m1 m1', wanted x sp -> wanted x sp' ->
    deliver sp (Ok (p, m1)) -> deliver sp' (Ok (p', m1')) -> pk_resolved p = pk_resolved p' /\ m1 = m1'.
  Notation flat_reach s H := (flat_reach rsat canon parse_dep deliver lnodeT lpath lman to_pkg root pkg m name Hroot compat s H).
  Notation flat_paths s H := (flat_paths rsat canon parse_dep deliver lnodeT lpath lman to_pkg root pkg m name Hroot compat s H).

  (** same path: same dependencies *)
  Lemma flat_asks s s' : reach root s -> reach root s' -> forall i j path, installed_at (s_g s) i path -> installed_at (s_g s') j path ->
    forall x sp t, declares (s_g s) i x sp t -> declares (s_g s') j x sp t.
  Proof.
    intros Hs Hs' i j path Hi Hj x sp t Hd. apply req_declares. apply req_declares in Hd.
    destruct (flat_reach s Hs) as (H1 & H2 & _). destruct (flat_reach s' Hs') as (H1' & H2' & _).
    pose proof (reach_inv _ _ _ _ _ _ _ _ _ _ _ _ _ _ Hroot Hs) as [I _ _ _ _].
    pose proof (reach_inv _ _ _ _ _ _ _ _ _ _ _ _ _ _ Hroot Hs') as [I' _ _ _ _].
    destruct (flat_paths s Hs i path Hi) as [[-> ->]|(y & -> & Hc)]; destruct (flat_paths s' Hs' j _ Hj) as [[-> E]|(y' & E & Hc')]; try discriminate.
    - rewrite H2' , <- H2. exact Hd.
    - injection E as <-.
      destruct (gi_child _ _ _ _ _ _ I _ _ _ Hc) as (Hcs & Hcp & Hcn). destruct (gi_child _ _ _ _ _ _ I' _ _ _ Hc') as (Hcs' & Hcp' & Hcn').
      assert (i <> 0) by (intros ->; rewrite (proj2 (gi_root _ _ _ _ _ _ I)) in Hcp; discriminate).
      assert (j <> 0) by (intros ->; rewrite (proj2 (gi_root _ _ _ _ _ _ I')) in Hcp'; discriminate).
      destruct (H1 i ltac:(lia)) as (_ & sp1 & p1 & m1 & n1 & A & B & _ & D & F). destruct (H1' j ltac:(lia)) as (_ & sp2 & p2 & m2 & n2 & A' & B' & _ & D' & F').
      rewrite Hcn in *. rewrite Hcn' in *. destruct (same _ _ _ _ _ _ _ A A' B B') as [_ <-].
      destruct (new_node_reqs_indep _ _ y _ p2 _ _ _ D) as (n3 & Hn3 & Er3). rewrite D' in Hn3. injection Hn3 as <-.
      rewrite F', Er3, <- F. exact Hd.
  Qed.
  (** a dependency on [x] is always linked to the top-level [x] *)
  Lemma flat_link s : reach root s -> forall i x sp t c, linked (s_g s) i x sp t c -> installed_at (s_g s) c [x].
  Proof.
    intros Hs i x sp t c Hl. pose proof (reach_inv _ _ _ _ _ _ _ _ _ _ _ _ _ _ Hroot Hs) as SI. pose proof SI as [I _ _ _ _].
    destruct (linked_dep _ _ _ _ _ _ Hl) as (ei & He & Hn).
    destruct (gi_dep _ _ _ _ _ _ I _ _ _ He) as (e & He' & _ & _ & Hnm & Hnz & _). rewrite Hn in He'. injection He' as <-. cbn in Hnm, Hnz.
    assert (Hc : c < size (s_g s)) by (apply nth_error_In in Hn; apply (gi_edge _ _ _ _ _ _ I _ Hn)).
    pose proof (installed_all _ _ _ _ _ _ I c Hc) as Ha. destruct (flat_paths s Hs c _ Ha) as [[-> _]|(y & E & Hy)]; [lia|].
    destruct (gi_child _ _ _ _ _ _ I _ _ _ Hy) as (_ & _ & Hcn). rewrite E in Ha. congruence.
  Qed.
  Theorem flat_same : forall s s', reach root s -> reach root s' -> finished s = true -> finished s' = true -> same_tree (s_g s) (s_g s').
  Proof.
    assert (G : forall s s', reach root s -> reach root s' -> finished s = true -> finished s' = true ->
      (forall i path, installed_at (s_g s) i path -> exists j, installed_at (s_g s') j path)
      /\ (forall path r, tree_src (s_g s) path r -> tree_src (s_g s') path r)).
    { intros s s' Hs Hs' Hf Hf'.
      pose proof (no_conflict_same_tree rsat canon parse_dep lnodeT lpath lman to_pkg deliver root pkg m name Hroot compat same s s' Hs Hs' Hf Hf') as T.
      assert (Hsrc : forall path r, tree_src (s_g s) path r -> tree_src (s_g s') path r).
      { intros path r (p & Hp & Es). destruct (proj1 (T path (pk_resolved p))) as (p' & Hp' & E); [exists p; auto|]. exists p'. split; [exact Hp'|congruence]. }
      split; [|exact Hsrc]. intros i path Hi. pose proof (reach_inv _ _ _ _ _ _ _ _ _ _ _ _ _ _ Hroot Hs) as [I _ _ _ _].
      destruct (installed_path _ _ _ _ _ _ I _ _ Hi) as [Hlt _]. destruct (proj1 (getn_lt (s_g s) i) Hlt) as [n Hn].
      destruct (Hsrc path (pk_resolved (n_pkg n))) as (p & (j & n' & Hj & _) & _); [|eauto]. exists (n_pkg n). split; [|reflexivity]. exists i, n. auto. }
    assert (F : forall s s', reach root s -> reach root s' -> finished s = true -> finished s' = true ->
      (forall path r, tree_src (s_g s) path r -> tree_src (s_g s') path r)
      /\ (forall path x sp t, tree_asks (s_g s) path x sp t -> tree_asks (s_g s') path x sp t)
      /\ (forall path x sp t path', tree_links (s_g s) path x sp t path' -> tree_links (s_g s') path x sp t path')).
    { intros s s' Hs Hs' Hf Hf'. destruct (G s s' Hs Hs' Hf Hf') as [Hat Hsrc]. split; [exact Hsrc|]. split.
      - intros path x sp t (i & Hi & Hd). destruct (Hat i path Hi) as [j Hj]. exists j. split; [exact Hj|]. exact (flat_asks s s' Hs Hs' i j path Hi Hj x sp t Hd).
      - intros path x sp t path' (i & c & Hi & Hl & Hc). destruct (Hat i path Hi) as [j Hj].
        destruct (links_ok rsat canon parse_dep lnodeT lpath lman to_pkg deliver None root pkg m name Hroot s Hs _ _ _ _ _ Hl) as [Hd _].
        pose proof (flat_asks s s' Hs Hs' i j path Hi Hj x sp t Hd) as Hd'.
        destruct (ResolverFacts.complete rsat canon parse_dep lnodeT lpath lman to_pkg deliver None root pkg m name Hroot s' Hs' Hf' _ _ _ _ Hd') as (c' & Hl' & _).
        exists j, c'. split; [exact Hj|]. split; [exact Hl'|]. pose proof (flat_link s Hs _ _ _ _ _ Hl) as Ha.
        pose proof (reach_inv _ _ _ _ _ _ _ _ _ _ _ _ _ _ Hroot Hs) as [I _ _ _ _].
        assert (path' = [x]) as -> by (rewrite (proj2 (installed_path _ _ _ _ _ _ I _ _ Hc)); symmetry; exact (proj2 (installed_path _ _ _ _ _ _ I _ _ Ha))).
        exact (flat_link s' Hs' _ _ _ _ _ Hl'). }
    intros s s' Hs Hs' Hf Hf'. destruct (F s s' Hs Hs' Hf Hf') as (A & B & C). destruct (F s' s Hs' Hs Hf' Hf) as (A' & B' & C').
    split; [|split]; intros; split; auto.
  Qed.
End Flat.
