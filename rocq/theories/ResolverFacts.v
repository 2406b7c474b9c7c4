(** * The resolver lemmas in the exact form used by PropsResolver *)
From Verif Require Import Base Types ResolverModel ResolverProofs ResolverRun ResolverSpec ResolverThms
  ResolverSteps ResolverTerm ResolverSafe ResolverBarrier.

Section World.
  Variable rsat : range -> version -> bool.
  Variable canon : string -> option string.
  Variable parse_dep : string -> string -> res err pspec.
  Variable lnode : Type.
  Variable lnode_path : lnode -> list string.
  Variable lnode_manifest : lnode -> manifest.
  Variable to_package : lnode -> res err (option package).
  Variable deliver : pspec -> outcome -> Prop.
  Variable lock : option (lockpkgs lnode).

  Notation reach := (reach rsat canon parse_dep lnode lnode_path lnode_manifest to_package deliver lock).
  Notation reach_nolock := (ResolverRun.reach rsat canon parse_dep lnode lnode_path lnode_manifest to_package deliver None).
  Notation reach_calm := (reach_calm rsat canon parse_dep lnode lnode_path lnode_manifest to_package deliver lock).
  Notation reach_barrier := (reach_barrier rsat canon parse_dep lnode lnode_path lnode_manifest to_package deliver).
  Notation reach_offline := (reach_offline rsat canon parse_dep lnode lnode_path lnode_manifest to_package lock).
  Notation exec := (exec rsat canon parse_dep lnode lnode_path lnode_manifest to_package lock).
  Notation steps_nolock := (steps rsat canon parse_dep lnode lnode_path lnode_manifest to_package deliver None).
  Notation legal := (legal deliver).

  Section Root.
  Variables (root : node) (pkg : package) (m : manifest) (name : string).
  Hypothesis Hroot : new_node parse_dep name pkg m true = Ok root.

  Lemma inv s : reach root s -> SInv rsat canon deliver s [].
  Proof. eapply reach_inv; eauto. Qed.

  Lemma tree_unique_all : forall s, reach root s ->
    (forall i, i < size (s_g s) -> exists! path, installed_at (s_g s) i path)
    /\ (forall i j path, installed_at (s_g s) i path -> installed_at (s_g s) j path -> i = j)
    /\ (forall i, 0 < i < size (s_g s) -> exists p, p < i /\ child_of (s_g s) p (name_of (s_g s) i) = Some i
          /\ forall p' x, child_of (s_g s) p' x = Some i -> p' = p /\ x = name_of (s_g s) i).
  Proof.
    intros s Hs. apply inv in Hs. split; [|split].
    - intros i Hi. eapply tree_unique; eauto.
    - intros i j path Hi Hj. eapply installed_inj; eauto.
    - intros i Hi. destruct Hs as [I _ _ _ _]. destruct (gi_par _ _ _ _ _ _ I i Hi) as (p & Hp & Hlt & Hc).
      exists p. split; [auto|]. split; [auto|]. intros p' x Hc'.
      destruct (gi_child _ _ _ _ _ _ I _ _ _ Hc') as (_ & Hp' & Hn). split; congruence.
  Qed.
  Lemma no_clobber : forall s a s', reach root s -> legal a -> exec s a = Some (Ok s') ->
    forall path p, tree_has (s_g s) path p -> tree_has (s_g s') path p.
  Proof. intros s a s' Hs Hl He. eapply tree_persists; eauto. now apply inv. Qed.

  Lemma links_ok : forall s, reach root s -> forall i x sp t c,
    linked (s_g s) i x sp t c -> declares (s_g s) i x sp t /\ acceptable rsat canon deliver (s_g s) c sp.
  Proof.
    intros s Hs i x sp t c Hl. apply inv in Hs. destruct (linked_dep _ _ _ _ _ _ Hl) as (ei & Hd & He).
    destruct (dep_linked _ _ _ _ _ _ _ Hs Hd) as (sp' & t' & c' & Hdec & Hl' & _ & Hacc).
    destruct (linked_dep _ _ _ _ _ _ Hl') as (ei' & Hd' & He'). rewrite Hd in Hd'. injection Hd' as <-.
    rewrite He in He'. injection He' as <- <- <-. auto.
  Qed.
  Lemma complete : forall s, reach root s -> finished s = true -> forall i x sp t,
    declares (s_g s) i x sp t -> exists c, linked (s_g s) i x sp t c /\ acceptable rsat canon deliver (s_g s) c sp.
  Proof.
    intros s Hs Hf i x sp t Hd. pose proof (inv s Hs) as SI. destruct (finished_nil _ _ _ _ SI Hf) as [Hq Hw].
    destruct (trichotomy _ _ _ _ SI _ _ _ _ Hd) as [(H & _)|[(_ & (c & Hl) & _)|(_ & _ & H)]].
    - rewrite Hq in H. destruct H.
    - exists c. split; [auto|]. eapply links_ok; eauto.
    - rewrite Hw in H. destruct H.
  Qed.
  Lemma calm_ok : forall s, reach_calm root s -> finished s = true -> forall i x sp t,
    declares (s_g s) i x sp t -> exists c, visible (s_g s) i x c /\ acceptable rsat canon deliver (s_g s) c sp.
  Proof.
    intros s Hc Hf i x sp t Hd. pose proof (reach_calm_reach _ _ _ _ _ _ _ _ _ _ _ Hc) as Hs.
    destruct (complete s Hs Hf _ _ _ _ Hd) as (c & Hl & Ha). exists c. split; [|auto].
    eapply calm_visible; eauto.
  Qed.
  Lemma offline_ok : forall s, reach_offline root s -> finished s = true -> forall i x sp t,
    declares (s_g s) i x sp t -> exists c, visible (s_g s) i x c /\ acceptable rsat canon deliver (s_g s) c sp.
  Proof. intros s Ho. apply calm_ok. eapply offline_calm; eauto. Qed.

  Lemma exactly_once : forall s, reach root s ->
    NoDup (map dkey (waiting s)) /\
    forall i x sp t, declares (s_g s) i x sp t ->
      (In i (s_q s) /\ ~ (exists c, linked (s_g s) i x sp t c) /\ ~ In (i, x) (map dkey (waiting s)))
   \/ (~ In i (s_q s) /\ (exists c, linked (s_g s) i x sp t c) /\ ~ In (i, x) (map dkey (waiting s)))
   \/ (~ In i (s_q s) /\ ~ (exists c, linked (s_g s) i x sp t c) /\ In (mkDep x sp t i) (waiting s)).
  Proof.
    intros s Hs. apply inv in Hs. split; [|eapply trichotomy; eauto].
    destruct Hs as [I _ _ _ _]. exact (gi_Pnd _ _ _ _ _ _ I).
  Qed.
  Lemma shared_fetches : forall s, reach root s ->
    NoDup (map fst (s_fetches s)) /\ (forall sp l, In (sp, l) (s_fetches s) -> l <> [] /\ forall d, In d l -> d_spec d = sp)
    /\ s_inflight s = List.length (waiting s).
  Proof.
    intros s Hs. apply inv in Hs. destruct Hs as [_ C K S N]. split; [auto|]. split; [|auto].
    intros sp l H. split; [eauto|]. intros d Hd. eapply S; eauto.
  Qed.
  Lemma always_progress : forall s, reach root s -> finished s = false ->
    (exists r, exec s APop = Some r) \/ (exists k spec, forall o, exists r, exec s (AChunk k [(spec, o)]) = Some r).
  Proof. intros s Hs. apply (progress _ _ _ _ _ _ _ deliver). now apply inv. Qed.
  Lemma no_panic :
    (forall n s, parse_dep n s <> Panic) ->
    (forall lf path ln, lock = Some lf -> In (path, ln) lf -> to_package ln <> Panic /\ lnode_path ln <> []) ->
    forall s a, reach root s -> legal a -> (forall k l sp, a = AChunk k l -> ~ In (sp, Panic) l) -> exec s a <> Some Panic.
  Proof.
    intros Hp Hlk s a Hs Hl Ha E.
    assert (Hf : forall A (r : res err A), r <> Panic -> fine true r) by (intros A [x|e|] Hne; cbn; auto).
    assert (fine true (@Panic err st)); [|auto].
    eapply (exec_fine rsat canon parse_dep lnode lnode_path lnode_manifest to_package deliver lock true) with (s := s) (a := a); eauto.
    - intros lf path ln Hlf Hin. destruct (Hlk lf path ln Hlf Hin). auto.
    - now apply inv.
    - destruct a as [|k l]; cbn; [auto|]. apply Forall_forall. intros [sp o] Hin. cbn. apply Hf. intros ->.
      eapply Ha; eauto.
  Qed.
  End Root.

  Section NoLock.
  Variables (root : node) (pkg : package) (m : manifest) (name : string).
  Hypothesis Hroot : new_node parse_dep name pkg m true = Ok root.
  Lemma acyclic_terminates : forall rk B,
    (forall s p m', deliver s (Ok (p, m')) -> List.length (m_deps m' ++ m_opt m') <= B /\
       forall nm str s', In (nm, str) (m_deps m' ++ m_opt m') -> parse_dep nm str = Ok s' -> rk s' < rk s) ->
    exists N, forall n s, steps_nolock root n s -> n <= N.
  Proof. intros rk B H. exists (pot rk B (init_graph root) [0] []). eapply steps_bound; eauto. Qed.
  Lemma no_conflict_terminates : forall U B,
    (forall x sp sp' p m', wanted parse_dep deliver root x sp -> wanted parse_dep deliver root x sp' ->
       deliver sp (Ok (p, m')) -> satisfies rsat canon (pk_resolved p) sp' = Ok true) ->
    (forall x sp, wanted parse_dep deliver root x sp -> In x U) ->
    (forall x sp p m', wanted parse_dep deliver root x sp -> deliver sp (Ok (p, m')) -> List.length (m_deps m' ++ m_opt m') <= B) ->
    exists N, forall n s, steps_nolock root n s -> n <= N.
  Proof. intros U B H1 H2 H3. exists (fpot U B (init_graph root) [0] []). eapply flat_steps_bound; eauto. Qed.
  Lemma no_conflict_same_tree :
    (forall x sp sp' p m', wanted parse_dep deliver root x sp -> wanted parse_dep deliver root x sp' ->
       deliver sp (Ok (p, m')) -> satisfies rsat canon (pk_resolved p) sp' = Ok true) ->
    (forall x sp sp' p p' m1 m1', wanted parse_dep deliver root x sp -> wanted parse_dep deliver root x sp' ->
       deliver sp (Ok (p, m1)) -> deliver sp' (Ok (p', m1')) -> pk_resolved p = pk_resolved p' /\ m1 = m1') ->
    forall s s', reach_nolock root s -> reach_nolock root s' -> finished s = true -> finished s' = true ->
    forall path r, tree_res (s_g s) path r <-> tree_res (s_g s') path r.
  Proof. intros H1 H2 s s' Hs Hs' Hf Hf' path r. split; eapply flat_same_tree; eauto. Qed.
  End NoLock.

  Lemma lockfile_entry : forall g i lf x sp p ln,
    satisfy_from_lockfile rsat canon lnode to_package g i lf x sp = Ok (Some (p, ln)) ->
    satisfies rsat canon (pk_resolved p) sp = Ok true /\
    exists pre suf, node_path g i = pre ++ suf /\ aget lpath_eqb (pre ++ [x]) lf = Some ln /\ to_package ln = Ok (Some p)
      /\ forall pre' suf' ln', node_path g i = pre' ++ suf' -> List.length pre < List.length pre' ->
           aget lpath_eqb (pre' ++ [x]) lf = Some ln' -> to_package ln' = Ok None.
  Proof.
    intros g i lf x sp p ln H. split; [eapply lock_walk_sat; eauto|].
    unfold satisfy_from_lockfile in H. remember (rev (node_path g i)) as rp eqn:Erp.
    assert (Enp : node_path g i = rev rp) by (subst; now rewrite rev_involutive).
    rewrite Enp. clear Erp Enp. revert H. induction rp as [|a rp IH]; intros H; cbn [lock_walk] in H.
    - destruct (aget lpath_eqb (rev [] ++ [x]) lf) as [l|] eqn:E; [|discriminate].
      destruct (to_package l) as [[pp|]| |] eqn:Et; cbn in H; try discriminate.
      destruct (satisfies rsat canon (pk_resolved pp) sp) as [[]| |]; cbn in H; try discriminate.
      injection H as <- <-. exists [], []. repeat split; auto.
      intros pre' suf' ln' Ep Hl. cbn in Ep. symmetry in Ep. apply app_eq_nil in Ep. destruct Ep as [-> ->]. cbn in Hl. lia.
    - assert (Hrec : (forall ln', aget lpath_eqb (rev (a :: rp) ++ [x]) lf = Some ln' -> to_package ln' = Ok None) ->
        lock_walk rsat canon lnode to_package lf rp x sp = Ok (Some (p, ln)) ->
        exists pre suf, rev (a :: rp) = pre ++ suf /\ aget lpath_eqb (pre ++ [x]) lf = Some ln /\ to_package ln = Ok (Some p)
          /\ forall pre' suf' ln', rev (a :: rp) = pre' ++ suf' -> List.length pre < List.length pre' ->
             aget lpath_eqb (pre' ++ [x]) lf = Some ln' -> to_package ln' = Ok None).
      { intros Hhere Hw. destruct (IH Hw) as (pre & suf & E1 & E2 & E3 & E4). exists pre, (suf ++ [a]).
        cbn [rev]. rewrite E1, app_assoc. repeat split; auto.
        intros pre' suf' ln' Ep Hl Hg. destruct suf' as [|z suf'] using rev_ind.
        - rewrite app_nil_r in Ep. apply Hhere. cbn [rev]. rewrite E1, Ep. exact Hg.
        - clear IHsuf'. rewrite (app_assoc pre') in Ep. apply app_inj_tail in Ep. destruct Ep as [Ep _].
          apply (E4 pre' suf'); auto. congruence. }
      destruct (aget lpath_eqb (rev (a :: rp) ++ [x]) lf) as [l|] eqn:E.
      + destruct (to_package l) as [[pp|]| |] eqn:Et; cbn [rbind] in H; try discriminate.
        * destruct (satisfies rsat canon (pk_resolved pp) sp) as [[]| |]; cbn in H; try discriminate.
          injection H as <- <-. exists (rev (a :: rp)), []. rewrite app_nil_r. repeat split; auto.
          intros pre' suf' ln' Ep Hl. rewrite Ep, app_length in Hl. lia.
        * apply Hrec; auto. intros ln' El. injection El as <-. auto.
      + apply Hrec; auto. intros ln' El. discriminate.
  Qed.
  Lemma lockfile_fallback : forall lf s d, lock = Some lf ->
    satisfy_dependency rsat canon (s_g s) d = Ok None ->
    satisfy_from_lockfile rsat canon lnode to_package (s_g s) (d_node d) lf (d_name d) (d_spec d) = Ok None ->
    exists s', process_dep rsat canon parse_dep lnode lnode_path lnode_manifest to_package lock s d = Ok s'
      /\ s_sink s' = s_sink s ++ [d] /\ s_g s' = s_g s.
  Proof.
    intros lf s d -> H1 H2. unfold process_dep. rewrite H1. cbn [rbind]. rewrite H2. cbn [rbind].
    eexists. split; [reflexivity|]. cbn. auto.
  Qed.
End World.

Section BarrierOk.
  Variable rsat : range -> version -> bool.
  Variable canon : string -> option string.
  Variable parse_dep : string -> string -> res err pspec.
  Variable lnode : Type.
  Variable lnode_path : lnode -> list string.
  Variable lnode_manifest : lnode -> manifest.
  Variable to_package : lnode -> res err (option package).
  Variable deliver : pspec -> outcome -> Prop.
  Variables (root : node) (pkg : package) (m : manifest) (name : string).
  Hypothesis Hroot : new_node parse_dep name pkg m true = Ok root.
  Lemma barrier_ok : forall s, reach_barrier rsat canon parse_dep lnode lnode_path lnode_manifest to_package deliver root s -> finished s = true -> forall i x sp t,
    declares (s_g s) i x sp t -> exists c, visible (s_g s) i x c /\ acceptable rsat canon deliver (s_g s) c sp.
  Proof.
    intros s Hb. eapply (calm_ok rsat canon parse_dep lnode lnode_path lnode_manifest to_package deliver None); eauto.
    eapply barrier_calm; eauto.
  Qed.
End BarrierOk.
