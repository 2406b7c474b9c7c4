(** * The resolver itself never panics, and fails only when an oracle does *)
From Verif Require Import Base Types ResolverModel ResolverProofs ResolverRun.
From Coq Require Import Permutation.

Section Safe.
  Variable rsat : range -> version -> bool.
  Variable canon : string -> option string.
  Variable parse_dep : string -> string -> res err pspec.
  Variable lnode : Type.
  Variable lnode_path : lnode -> list string.
  Variable lnode_manifest : lnode -> manifest.
  Variable to_package : lnode -> res err (option package).
  Variable deliver : pspec -> outcome -> Prop.
  Variable lock : option (lockpkgs lnode).

  Notation GInv := (GInv rsat canon deliver).
  Notation SInv := (SInv rsat canon deliver).
  Notation exec := (exec rsat canon parse_dep lnode lnode_path lnode_manifest to_package lock).

  (** with [errs = true]: no panic; with [errs = false]: neither panic nor error *)
  Variable errs : bool.
  Definition fine {A} (r : res err A) : Prop := match r with Ok _ => True | Err _ => errs = true | Panic => False end.
  Lemma fine_bind A C (r : res err A) (f : A -> res err C) : fine r -> (forall a, r = Ok a -> fine (f a)) -> fine (rbind r f).
  Proof. destruct r; cbn; auto. Qed.

  Hypothesis parse_fine : forall n s, fine (parse_dep n s).
  Hypothesis canon_fine : forall p, errs = true \/ canon p <> None.
  Hypothesis lock_fine : forall lf path ln, lock = Some lf -> In (path, ln) lf -> fine (to_package ln) /\ lnode_path ln <> [].

  Lemma sat_fine r s : fine (satisfies rsat canon r s).
  Proof.
    unfold satisfies. destruct r, (target s); cbn; auto.
    destruct (canon_fine path0) as [E|E]; destruct (canon path0); cbn; auto; congruence.
  Qed.
  Lemma add_reqs_fine l t : forall acc, fine (add_reqs parse_dep l t acc).
  Proof. induction l as [|[n s] tl IH]; cbn; intros acc; auto. apply fine_bind; auto. Qed.
  Lemma new_node_fine name p m b : fine (new_node parse_dep name p m b).
  Proof.
    unfold new_node. repeat (apply fine_bind; [try apply add_reqs_fine | intros ? _]); cbn; auto.
    destruct b; cbn; auto. apply add_reqs_fine.
  Qed.

  Lemma resolve_getn g q P i x c : GInv g q P -> i < size g -> resolve_dep g i x = Some c -> exists n, getn g c = Some n.
  Proof.
    intros I Hi Hr. pose proof (ginv_parlt _ _ _ _ _ _ I) as Hp. apply lookup_resolve in Hr; auto.
    destruct (lookup_spec _ _ _ _ Hr) as (a & _ & Hc & _). destruct (gi_child _ _ _ _ _ _ I _ _ _ Hc) as (Hs & _).
    now apply getn_lt.
  Qed.
  Lemma satisfy_fine g q P d : GInv g q (d :: P) -> fine (satisfy_dependency rsat canon g d).
  Proof.
    intros I. destruct (gi_P _ _ _ _ _ _ I d (or_introl eq_refl)) as (Hdn & _).
    unfold satisfy_dependency. destruct (resolve_dep g (d_node d) (d_name d)) as [c|] eqn:Er; [|cbn; auto].
    destruct (resolve_getn _ _ _ _ _ _ I Hdn Er) as [n Hn]. rewrite Hn.
    apply fine_bind; [apply sat_fine|]. intros [] _; cbn; auto.
  Qed.
  Lemma climb_fine g name req pkg lp : forall l tgt,
    (forall j, In j l -> fine (conflict_existing rsat canon g j name req) /\ fine (conflict_req rsat canon g j name pkg)) ->
    fine (climb rsat canon g name req pkg lp tgt l).
  Proof.
    induction l as [|j t IH]; cbn; intros tgt H; auto.
    destruct (H j (or_introl eq_refl)) as [A B]. apply fine_bind; [auto|]. intros [] _; cbn; auto.
    apply fine_bind; [auto|]. intros [] _; cbn; auto.
    destruct lp as [lp|]; [|apply IH; auto]. destruct (lpath_eqb lp (node_path g j)); cbn; auto.
  Qed.
  Lemma place_fine g q P d p m tp : GInv g q (d :: P) -> tp <> Some [] -> fine (place_child rsat canon parse_dep g d p m tp).
  Proof.
    intros I Htp. pose proof (ginv_parlt _ _ _ _ _ _ I) as Hp.
    destruct (gi_P _ _ _ _ _ _ I d (or_introl eq_refl)) as (Hdn & _).
    unfold place_child. apply fine_bind; [apply new_node_fine|]. intros cn Hcn.
    destruct (new_node_ok _ _ _ _ _ _ Hcn) as (Hnm & Hpk & Hpa & Hch & Hde & Hnd).
    apply fine_bind. { destruct tp as [[|a l]|]; cbn; auto. }
    intros lp _. apply fine_bind; [|intros ? _; cbn; auto].
    change (mkGraph (g_nodes g ++ [cn]) (g_edges g ++ [mkEdge (d_node d) (length (g_nodes g)) (d_spec d) (d_type d)]))
      with (pre_place g d cn). set (g1 := pre_place g d cn).
    assert (Hp1 : parlt g1) by (intros i p0; unfold g1; rewrite pre_parent by auto; apply Hp).
    apply climb_fine. intros j Hj. apply under_parents in Hj; [|auto | unfold g1; rewrite pre_size; lia].
    pose proof (under_lt _ Hp1 _ _ Hj) as Hle. assert (Hj1 : j < size g1) by (unfold g1; rewrite pre_size; lia).
    split.
    - unfold conflict_existing. destruct (resolve_dep g1 j (d_name d)) as [c|] eqn:Er; [|cbn; auto].
      destruct (existsb _ _); [|cbn; auto].
      assert (exists n, getn g1 c = Some n) as [n Hn].
      { apply lookup_resolve in Er; auto.
        assert (Hl : lookup g j (d_name d) c).
        { eapply (lookup_ext g1 g); [intros; unfold g1; symmetry; apply pre_parent; auto | intros; unfold g1; symmetry; apply pre_child; auto | exact Er]. }
        destruct (lookup_spec _ _ _ _ Hl) as (a & _ & Hc & _). destruct (gi_child _ _ _ _ _ _ I _ _ _ Hc) as (Hs & _).
        apply getn_lt. unfold g1. rewrite pre_size. lia. }
      rewrite Hn. apply fine_bind; [apply sat_fine | cbn; auto].
    - unfold conflict_req. apply getn_lt in Hj1. destruct Hj1 as [n Hn]. rewrite Hn.
      destruct (sget (d_name d) (n_reqs n)) as [[r t]|]; [|cbn; auto]. apply fine_bind; [apply sat_fine | cbn; auto].
  Qed.

  Lemma lpath_spec a b : lpath_eqb a b = true <-> a = b.
  Proof. apply list_eqb_spec, seqb_spec. Qed.
  Lemma lock_walk_fine lf name req : lock = Some lf -> forall rp, fine (lock_walk rsat canon lnode to_package lf rp name req).
  Proof.
    intros El. assert (Hh : forall path (k : unit -> res err (option (package * lnode))), fine (k tt) ->
      fine (match aget lpath_eqb path lf with
            | Some ln => let! mp := to_package ln in
                match mp with Some p => let! s := satisfies rsat canon (pk_resolved p) req in if s then Ok (Some (p, ln)) else Ok None | None => k tt end
            | None => k tt end)).
    { intros path k Hk. destruct (aget lpath_eqb path lf) as [ln|] eqn:E; auto.
      apply aget_In in E; [|apply lpath_spec]. destruct (lock_fine _ _ _ El E) as [Hf _].
      apply fine_bind; auto. intros [p|] _; auto. apply fine_bind; [apply sat_fine|]. intros [] _; cbn; auto. }
    induction rp as [|a rp IH]; cbn [lock_walk].
    - apply (Hh _ (fun _ => Ok None)). cbn; auto.
    - apply (Hh _ (fun _ => lock_walk rsat canon lnode to_package lf rp name req)). auto.
  Qed.
  Lemma lock_walk_In lf name req : forall rp p ln, lock_walk rsat canon lnode to_package lf rp name req = Ok (Some (p, ln)) ->
    exists path, In (path, ln) lf.
  Proof.
    induction rp as [|a rp IH]; intros p ln H; cbn [lock_walk] in H.
    - destruct (aget lpath_eqb (rev [] ++ [name]) lf) as [l|] eqn:E; [|discriminate].
      destruct (to_package l) as [[pp|]| |]; cbn in H; try discriminate.
      destruct (satisfies rsat canon (pk_resolved pp) req) as [[]| |]; cbn in H; try discriminate.
      inversion H; subst. apply aget_In in E; [eauto | apply lpath_spec].
    - destruct (aget lpath_eqb (rev (a :: rp) ++ [name]) lf) as [l|] eqn:E; [|eauto].
      destruct (to_package l) as [[pp|]| |]; cbn in H; try discriminate; [|eauto].
      destruct (satisfies rsat canon (pk_resolved pp) req) as [[]| |]; cbn in H; try discriminate.
      inversion H; subst. apply aget_In in E; [eauto | apply lpath_spec].
  Qed.

  Lemma process_dep_fine s d todo : SInv s (d :: todo) ->
    fine (process_dep rsat canon parse_dep lnode lnode_path lnode_manifest to_package lock s d).
  Proof.
    intros [I _ _ _ _]. unfold process_dep. apply fine_bind; [eapply satisfy_fine; eauto|].
    intros [[g' x]|] Hs; [cbn; auto|].
    assert (Hlk : forall lf, lock = Some lf -> fine (satisfy_from_lockfile rsat canon lnode to_package (s_g s) (d_node d) lf (d_name d) (d_spec d)))
      by (intros lf E; apply lock_walk_fine; auto).
    assert (Hne : forall lf p ln, lock = Some lf ->
      satisfy_from_lockfile rsat canon lnode to_package (s_g s) (d_node d) lf (d_name d) (d_spec d) = Ok (Some (p, ln)) -> Some (lnode_path ln) <> Some []).
    { intros lf p ln E Hw. destruct (lock_walk_In _ _ _ _ _ _ Hw) as [path Hin].
      destruct (lock_fine _ _ _ E Hin) as [_ Hne]. intros E'; injection E'; auto. }
    apply fine_bind. { destruct lock as [lf|]; [apply Hlk; auto | cbn; auto]. }
    intros [[p ln]|] Hl; [|cbn; auto].
    apply fine_bind; [|intros [g' ci] _; cbn; auto]. eapply place_fine; eauto.
    destruct lock as [lf|]; [|discriminate]. eapply Hne; eauto.
  Qed.
  Lemma process_deps_fine l : forall s todo, SInv s (l ++ todo) ->
    fine (process_deps rsat canon parse_dep lnode lnode_path lnode_manifest to_package lock s l).
  Proof.
    induction l as [|d t IH]; cbn; intros s todo I; auto.
    apply fine_bind; [eapply process_dep_fine; eauto|]. intros s1 E. apply (IH s1 todo). eapply process_dep_inv; eauto.
  Qed.
  Lemma place_all_fine p m l : forall s todo, SInv s (l ++ todo) -> (forall d, In d l -> exists m', deliver (d_spec d) (Ok (p, m'))) ->
    fine (place_all rsat canon parse_dep s p m l).
  Proof.
    induction l as [|d t IH]; cbn; intros s todo I Hd; auto.
    apply fine_bind; [|intros s1 E; apply (IH s1 todo); auto; eapply place_fetched_inv; eauto; apply Hd; auto].
    unfold place_fetched. destruct I as [Ig _ _ _ _]. apply fine_bind; [eapply satisfy_fine; eauto|].
    intros [[g' x]|] _; [cbn; auto|]. apply fine_bind; [eapply place_fine; eauto; discriminate | intros [g' ci] _; cbn; auto].
  Qed.
  Lemma result_step_fine s spec o : SInv s [] -> deliver spec o -> fine o -> fine (result_step rsat canon parse_dep s spec o).
  Proof.
    intros [I C K S N] Hd Ho. unfold result_step. apply fine_bind; auto. intros [p m] ->.
    destruct (aget pspec_eqb spec (s_fetches s)) as [l|] eqn:E; [|cbn; auto].
    assert (Hin : In (spec, l) (s_fetches s)) by (eapply aget_In; [apply pspec_eqb_spec | eauto]).
    pose proof (adel_fwait _ _ _ K E) as HP.
    assert (HW : Permutation (waiting s) (l ++ (s_sink s ++ fwait (adel pspec_eqb spec (s_fetches s))))).
    { unfold waiting. fold (fwait (s_fetches s)). rewrite HP. rewrite !app_assoc. apply Permutation_app_tail. apply Permutation_app_comm. }
    apply place_all_fine with (todo := []).
    - rewrite app_nil_r. constructor; cbn.
      + eapply GInv_perm; [reflexivity | | exact I]. exact HW.
      + unfold waiting; cbn. rewrite C, (Permutation_length HW), app_length. unfold fwait. lia.
      + unfold adel. clear -K. induction (s_fetches s) as [|[a b] t IH]; cbn in *; [constructor|].
        inversion K as [|? ? Hni K']; subst. destruct (negb (pspec_eqb spec a)); cbn; [|auto].
        constructor; [|auto]. intros Hin. apply Hni. apply in_map_iff in Hin. destruct Hin as (e & E1 & E2).
        apply filter_In in E2. apply in_map_iff. exists e. tauto.
      + intros sp l' d Hi Hd'. unfold adel in Hi. apply filter_In in Hi. eapply S; [apply Hi | auto].
      + intros sp l' Hi. unfold adel in Hi. apply filter_In in Hi. eapply N; apply Hi.
    - intros d Hdl. exists m. rewrite (S _ _ _ Hin Hdl). auto.
  Qed.
  Lemma results_step_fine l : forall s, SInv s [] -> Forall (legal_result deliver) l -> Forall (fun r => fine (snd r)) l ->
    fine (results_step rsat canon parse_dep s l).
  Proof.
    induction l as [|[sp o] t IH]; cbn; intros s I Hl Hf; auto.
    inversion Hl; subst. inversion Hf; subst. apply fine_bind; [apply result_step_fine; auto|].
    intros s1 E. apply IH; auto. eapply result_step_inv; eauto.
  Qed.
  Definition fine_action (a : action) : Prop := match a with APop => True | AChunk _ rs => Forall (fun r => fine (snd r)) rs end.
  Lemma exec_fine s a r : SInv s [] -> legal deliver a -> fine_action a -> exec s a = Some r -> fine r.
  Proof.
    intros I Hl Hf H. destruct a as [|k rs]; cbn [ResolverModel.exec] in H.
    - pose proof I as [Ig C K S N]. unfold pop_step in H. destruct (s_q s) as [|i q] eqn:Eq; [discriminate|].
      destruct (gi_q _ _ _ _ _ _ Ig) as [_ Hq]. destruct (Hq i (or_introl eq_refl)) as (Hi & _).
      apply getn_lt in Hi. destruct Hi as [n Hn]. rewrite Hn in H. injection H as <-.
      apply process_deps_fine with (todo := []). rewrite app_nil_r. constructor; cbn; auto. eapply GInv_pop; eauto.
    - destruct (s_q s) as [|? ?]; [|discriminate].
      destruct (s_inflight s =? 0); [discriminate|].
      destruct (existsb _ rs); [discriminate|].
      destruct rs as [|r0 rs]; [discriminate|]. injection H as <-.
      apply fine_bind; [|intros ? _; cbn; auto].
      destruct (pull_inv _ _ _ k s [] I) as [I1 _]. apply (results_step_fine (r0 :: rs) (pull k s)); auto.
  Qed.
End Safe.
