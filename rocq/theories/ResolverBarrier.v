(** * Schedules under which walk-up lookup is guaranteed *)
From Verif Require Import Base Types ResolverModel ResolverProofs ResolverRun ResolverSpec ResolverThms.
From Coq Require Import Permutation.

Section Barrier.
  Variable rsat : range -> version -> bool.
  Variable canon : string -> option string.
  Variable parse_dep : string -> string -> res err pspec.
  Variable lnode : Type.
  Variable lnode_path : lnode -> list string.
  Variable lnode_manifest : lnode -> manifest.
  Variable to_package : lnode -> res err (option package).
  Variable deliver : pspec -> outcome -> Prop.

  Notation SInv := (SInv rsat canon deliver).
  Notation exec lock := (exec rsat canon parse_dep lnode lnode_path lnode_manifest to_package lock).
  Notation reach lock := (reach rsat canon parse_dep lnode lnode_path lnode_manifest to_package deliver lock).
  Notation reach_calm lock := (reach_calm rsat canon parse_dep lnode lnode_path lnode_manifest to_package deliver lock).
  Notation new_node := (new_node parse_dep).

  (** no lockfile, and every chunk of results answers everything that was outstanding *)
  Inductive reach_barrier (root : node) : st -> Prop :=
  | rb_init : reach_barrier root (init root)
  | rb_pop s s' : reach_barrier root s -> exec None s APop = Some (Ok s') -> reach_barrier root s'
  | rb_chunk s k rs s' : reach_barrier root s -> legal deliver (AChunk k rs) -> exec None s (AChunk k rs) = Some (Ok s') ->
      waiting s' = [] -> reach_barrier root s'.

  (** every request is answered on the spot (by the tree or by the lockfile): nothing is ever fetched *)
  Inductive reach_offline (lock : option (lockpkgs lnode)) (root : node) : st -> Prop :=
  | ro_init : reach_offline lock root (init root)
  | ro_pop s s' : reach_offline lock root s -> exec lock s APop = Some (Ok s') -> waiting s' = [] -> reach_offline lock root s'.

  Lemma offline_calm lock root s : reach_offline lock root s -> reach_calm lock root s /\ waiting s = [].
  Proof.
    induction 1 as [|s s' H [IH Hw] He Hw']; [split; [constructor | reflexivity]|].
    split; [|auto]. eapply rc_step with (a := APop); eauto; cbn; auto.
    destruct (s_q s); auto. intros d Hd. rewrite Hw in Hd. destruct Hd.
  Qed.

  Lemma process_deps_frame l : forall s s' todo, SInv s (l ++ todo) ->
    process_deps rsat canon parse_dep lnode lnode_path lnode_manifest to_package None s l = Ok s' ->
    (forall j, parent_of (s_g s') j = parent_of (s_g s) j) /\ s_q s' = s_q s
    /\ size (s_g s') = size (s_g s) /\ (forall d, In d (waiting s') -> In d (waiting s) \/ In d l).
  Proof.
    induction l as [|d t IH]; cbn; intros s s' todo I H; [inversion H; subst; auto|].
    destruct (process_dep rsat canon parse_dep lnode lnode_path lnode_manifest to_package None s d) as [s1| |] eqn:E; cbn in H; try discriminate.
    pose proof (process_dep_inv _ _ _ _ _ _ _ _ _ _ _ _ _ I E) as I1.
    destruct (IH _ _ _ I1 H) as (A & B & C & D). destruct I as [Ig _ _ _ _].
    unfold process_dep in E.
    destruct (satisfy_dependency rsat canon (s_g s) d) as [[[g' x]|]| |] eqn:Es; cbn in E; try discriminate; inversion E; subst; cbn in *.
    - destruct (satisfy_some _ _ _ _ _ _ Es) as (nx & Hr & Hx & Hss & ->).
      destruct (gi_P _ _ _ _ _ _ Ig d (or_introl eq_refl)) as (Hdn & _).
      destruct (link_dep_upd (mkGraph (g_nodes (s_g s)) (g_edges (s_g s) ++ [mkEdge (d_node d) x (d_spec d) (d_type d)])) (d_node d) (d_name d) (length (g_edges (s_g s))))
        as [(Usz & Upar & _) Hed]; [exact Hdn|].
      repeat split.
      + intros j. rewrite A, Upar. reflexivity.
      + auto.
      + rewrite C. exact Usz.
      + intros d' Hd'. destruct (D _ Hd'); auto.
    - repeat split; auto. intros d' Hd'. destruct (D _ Hd') as [Hi|Hi]; auto. unfold waiting in *; cbn in Hi.
      rewrite !in_app_iff in Hi. cbn in Hi. rewrite in_app_iff. tauto.
  Qed.

  Lemma barrier_calm root pkg m name s : new_node name pkg m true = Ok root -> reach_barrier root s ->
    reach_calm None root s /\ (forall i d, In i (s_q s) -> In d (waiting s) -> under (s_g s) i (d_node d) -> False).
  Proof.
    intros Hr H. induction H as [|s s' H [IH Hno] He|s k rs s' H [IH Hno] Hl He Hw].
    - split; [constructor|]. intros i d _ [].
    - assert (SI : SInv s []) by (eapply reach_inv; eauto; eapply reach_calm_reach; eauto).
      assert (Hc : calm s APop).
      { cbn. destruct (s_q s) as [|i q] eqn:Eq; auto. intros d Hd Hu. exfalso. eapply Hno; eauto. now left. }
      split; [eapply rc_step with (a := APop); eauto; exact Logic.I|].
      cbn [ResolverModel.exec] in He. unfold pop_step in He. destruct (s_q s) as [|i q] eqn:Eq; [discriminate|].
      destruct (getn (s_g s) i) as [n|] eqn:En; [|discriminate]. injection He as He.
      pose proof SI as [I C K S N]. rewrite Eq in I.
      destruct (process_deps_frame (deps_of i n) (mkSt (s_g s) q (s_inflight s) (s_sink s) (s_fetches s)) s' []) as (A & B & Cz & D); [|exact He|].
      { rewrite app_nil_r. constructor; cbn; auto. eapply GInv_pop; eauto. }
      cbn in *. rewrite B. intros j d Hj Hd Hu.
      assert (Hu' : under (s_g s) j (d_node d)) by (eapply under_ext; [|exact Hu]; intros; symmetry; apply A).
      destruct (D _ Hd) as [Hd'|Hd']; [eapply (Hno j d); eauto|].
      unfold deps_of in Hd'. apply in_map_iff in Hd'. destruct Hd' as (r & <- & _). cbn in Hu'.
      destruct (gi_q _ _ _ _ _ _ I) as [Hnd Hq]. destruct (Hq i (or_introl eq_refl)) as (Hi & _ & Hch).
      destruct (Hq j (or_intror Hj)) as (Hjs & _).
      assert (j = i) by (eapply under_leaf; eauto). subst. inversion Hnd; auto.
    - split; [eapply rc_step; eauto; exact Logic.I|]. rewrite Hw. intros i d _ [].
  Qed.
End Barrier.
