(** * Consequences of the resolver invariants, in the vocabulary of ResolverSpec *)
From Verif Require Import Base Types ResolverModel ResolverProofs ResolverRun ResolverSpec.
From Coq Require Import Permutation.

Section Evolve.
  Variable rsat : range -> version -> bool.
  Variable canon : string -> option string.
  Variable parse_dep : string -> string -> res err pspec.
  Variable lnode : Type.
  Variable lnode_path : lnode -> list string.
  Variable lnode_manifest : lnode -> manifest.
  Variable to_package : lnode -> res err (option package).
  Variable deliver : pspec -> outcome -> Prop.
  Variable lock : option (lockpkgs lnode).

  Notation sat := (satisfies rsat canon).
  Notation GInv := (GInv rsat canon deliver).
  Notation SInv := (SInv rsat canon deliver).
  Notation satisfy_dependency := (satisfy_dependency rsat canon).
  Notation place_child := (place_child rsat canon parse_dep).
  Notation exec := (exec rsat canon parse_dep lnode lnode_path lnode_manifest to_package lock).
  Notation legal := (legal deliver).
  Notation reach := (reach rsat canon parse_dep lnode lnode_path lnode_manifest to_package deliver lock).
  Notation reach_calm := (reach_calm rsat canon parse_dep lnode lnode_path lnode_manifest to_package deliver lock).
  Notation new_node := (new_node parse_dep).

  (** *** a relation kept by both graph updates is kept by every step *)
  Section R.
    Variable R : graph -> graph -> Prop.
    Hypothesis R_refl : forall g, R g g.
    Hypothesis R_trans : forall a b c, R a b -> R b c -> R a c.
    Hypothesis R_sat : forall g q P d g' x, GInv g q (d :: P) -> satisfy_dependency g d = Ok (Some (g', x)) -> R g g'.
    Hypothesis R_place : forall g q P d p m tp g' ci, GInv g q (d :: P) -> satisfy_dependency g d = Ok None ->
      place_child g d p m tp = Ok (g', ci) ->
      (sat (pk_resolved p) (d_spec d) = Ok true \/ exists m', deliver (d_spec d) (Ok (p, m'))) -> R g g'.

    Lemma process_deps_R l : forall s todo s', SInv s (l ++ todo) ->
       process_deps rsat canon parse_dep lnode lnode_path lnode_manifest to_package lock s l = Ok s' -> R (s_g s) (s_g s').
    Proof.
      induction l as [|d t IH]; cbn; intros s todo s' I H; [inversion H; subst; apply R_refl|].
      destruct (process_dep rsat canon parse_dep lnode lnode_path lnode_manifest to_package lock s d) as [s1| |] eqn:E; cbn in H; try discriminate.
      pose proof (process_dep_inv _ _ _ _ _ _ _ _ _ _ _ _ _ I E) as I1.
      eapply R_trans; [|eapply IH; [exact I1 | eauto]].
      destruct I as [I C K S N]. unfold process_dep in E.
      destruct (satisfy_dependency (s_g s) d) as [[[g' x]|]| |] eqn:Es; cbn in E; try discriminate.
      - inversion E; subst. eapply R_sat; eauto.
      - set (lk := match lock with Some lf => satisfy_from_lockfile rsat canon lnode to_package (s_g s) (d_node d) lf (d_name d) (d_spec d) | None => Ok None end) in E.
        destruct lk as [[[p ln]|]| |] eqn:El; cbn in E; try discriminate.
        + destruct (place_child (s_g s) d p (lnode_manifest ln) (Some (lnode_path ln))) as [[g' ci]| |] eqn:Ep; cbn in E; try discriminate.
          inversion E; subst. eapply R_place; eauto. left. unfold lk in El. destruct lock as [lf|]; [|discriminate].
          eapply lock_walk_sat; eauto.
        + inversion E; subst. apply R_refl.
    Qed.
    Lemma place_all_R l p m : forall s todo s', SInv s (l ++ todo) ->
       (forall d, In d l -> exists m', deliver (d_spec d) (Ok (p, m'))) ->
       place_all rsat canon parse_dep s p m l = Ok s' -> R (s_g s) (s_g s').
    Proof.
      induction l as [|d t IH]; cbn; intros s todo s' I Hd H; [inversion H; subst; apply R_refl|].
      destruct (place_fetched rsat canon parse_dep s p m d) as [s1| |] eqn:E; cbn in H; try discriminate.
      assert (Hdd : exists m', deliver (d_spec d) (Ok (p, m'))) by auto.
      pose proof (place_fetched_inv _ _ _ _ _ _ _ _ _ _ I Hdd E) as I1.
      eapply R_trans; [|eapply IH; [exact I1 | auto | eauto]].
      destruct I as [I C K S N]. unfold place_fetched in E.
      destruct (satisfy_dependency (s_g s) d) as [[[g' x]|]| |] eqn:Es; cbn in E; try discriminate.
      - inversion E; subst. eapply R_sat; eauto.
      - destruct (place_child (s_g s) d p m None) as [[g' ci]| |] eqn:Ep; cbn in E; try discriminate.
        inversion E; subst. eapply R_place; eauto.
    Qed.
    Lemma result_step_R s spec o s' : SInv s [] -> deliver spec o -> result_step rsat canon parse_dep s spec o = Ok s' -> R (s_g s) (s_g s').
    Proof.
      intros [I C K S N] Hd H. unfold result_step in H.
      destruct o as [[p m]| |]; cbn in H; try discriminate.
      destruct (aget pspec_eqb spec (s_fetches s)) as [l|] eqn:E; [|inversion H; subst; apply R_refl].
      assert (Hin : In (spec, l) (s_fetches s)) by (eapply aget_In; [apply pspec_eqb_spec | eauto]).
      pose proof (adel_fwait _ _ _ K E) as HP.
      assert (HW : Permutation (waiting s) (l ++ (s_sink s ++ fwait (adel pspec_eqb spec (s_fetches s))))).
      { unfold waiting. fold (fwait (s_fetches s)). rewrite HP. rewrite !app_assoc. apply Permutation_app_tail. apply Permutation_app_comm. }
      match type of H with place_all _ _ _ ?s0 _ _ _ = _ => change (s_g s) with (s_g s0) end.
      eapply place_all_R; [| |exact H].
      - rewrite app_nil_r. constructor; cbn.
        + eapply GInv_perm; [reflexivity | | exact I]. exact HW.
        + unfold waiting; cbn. rewrite C, (Permutation_length HW), app_length. unfold fwait. lia.
        + unfold adel. clear -K. induction (s_fetches s) as [|[a b] t IH]; cbn in *; [constructor|].
          inversion K as [|? ? Hni K']; subst. destruct (negb (pspec_eqb spec a)); cbn; [|auto].
          constructor; [|auto]. intros Hin. apply Hni. apply in_map_iff in Hin. destruct Hin as (e & E1 & E2).
          apply filter_In in E2. apply in_map_iff. exists e. tauto.
        + intros sp l' d Hi Hd'. unfold adel in Hi. apply filter_In in Hi. eapply S; [apply Hi | auto].
        + intros sp l' Hi. unfold adel in Hi. apply filter_In in Hi. eapply N; apply Hi.
      - intros d Hdl. exists m. rewrite (S _ _ _ Hin Hdl). auto.
    Qed.
    Lemma results_step_R l : forall s s', SInv s [] -> Forall (legal_result deliver) l -> results_step rsat canon parse_dep s l = Ok s' -> R (s_g s) (s_g s').
    Proof.
      induction l as [|[sp o] t IH]; cbn; intros s s' I Hl H; [inversion H; subst; apply R_refl|].
      inversion Hl as [|? ? Ho Ht]; subst.
      destruct (result_step rsat canon parse_dep s sp o) as [s1| |] eqn:E; cbn in H; try discriminate.
      eapply R_trans; [eapply result_step_R; eauto|]. eapply IH; [|auto|eauto]. eapply result_step_inv; eauto.
    Qed.
    Lemma exec_R s a s' : SInv s [] -> legal a -> exec s a = Some (Ok s') -> R (s_g s) (s_g s').
    Proof.
      intros I Hl H. destruct a as [|k rs]; cbn [ResolverModel.exec] in H.
      - pose proof I as [Ig C K S N]. unfold pop_step in H. destruct (s_q s) as [|i q] eqn:Eq; [discriminate|].
        destruct (getn (s_g s) i) as [n|] eqn:En; [|discriminate]. injection H as H.
        match type of H with process_deps _ _ _ _ _ _ _ _ ?s0 _ = _ => change (s_g s) with (s_g s0) end.
        eapply (process_deps_R _ _ []); [|exact H]. rewrite app_nil_r. constructor; cbn; auto. eapply GInv_pop; eauto.
      - destruct (s_q s) as [|? ?]; [|discriminate].
        destruct (s_inflight s =? 0); [discriminate|].
        destruct (existsb _ rs); [discriminate|].
        destruct (results_step rsat canon parse_dep (pull k s) rs) as [s1| |] eqn:E;
          (destruct rs as [|r rs]; [discriminate|]); cbn [rbind] in H; try discriminate.
        injection H as <-. destruct (pull_inv _ _ _ k s [] I) as [I1 _].
        cbn. change (s_g s) with (s_g (pull k s)). eapply results_step_R; eauto.
    Qed.
  End R.

  (** *** C01 *)
  Definition extends (g g' : graph) : Prop :=
    size g <= size g' /\ (forall p x c, child_of g p x = Some c -> child_of g' p x = Some c)
    /\ (forall i p, pkg_of g i = Some p -> pkg_of g' i = Some p).

  Lemma extends_exec s a s' : SInv s [] -> legal a -> exec s a = Some (Ok s') -> extends (s_g s) (s_g s').
  Proof.
    apply exec_R.
    - intros g; repeat split; auto.
    - intros x y z (A1 & B1 & C1) (A2 & B2 & C2); repeat split; [lia | auto | auto].
    - intros g q P d g' x I H. destruct (satisfy_some _ _ _ _ _ _ H) as (nx & Hr & Hx & Hs & ->).
      destruct (gi_P _ _ _ _ _ _ I d (or_introl eq_refl)) as (Hdn & _).
      destruct (link_dep_upd (mkGraph (g_nodes g) (g_edges g ++ [mkEdge (d_node d) x (d_spec d) (d_type d)])) (d_node d) (d_name d) (length (g_edges g)))
        as [(Usz & Upar & Uch & Unm & Upk & Urq & Udp & Unr) _]; [exact Hdn|].
      repeat split; [rewrite Usz; auto | intros p y c; rewrite Uch; auto | intros i p; rewrite Upk; auto].
    - intros g q P d pkg m tp g' ci I Hs Hpl _.
      pose proof (ginv_parlt _ _ _ _ _ _ I) as Hp.
      destruct (gi_P _ _ _ _ _ _ I d (or_introl eq_refl)) as (Hdn & _).
      destruct (place_child_inv _ _ _ _ _ _ _ _ _ _ Hdn Hp Hpl) as (cn & tgt & Hcn & -> & U & Htl & Hut & Hpass).
      destruct (new_node_ok _ _ _ _ _ _ Hcn) as (Hnm & Hpk & Hpa & Hch & Hde & Hnd).
      pose proof (target_free _ _ _ _ _ _ _ _ _ _ I Hpa Hch Hs Hut Hpass) as Hfree.
      destruct U as (Usz & Hed & Upar & Uch & Unm & Upk & Urq & Udp & Unr).
      repeat split; [lia | |].
      + intros p x c Hc. rewrite Uch. destruct ((p =? tgt) && (x =? d_name d)%string) eqn:Ek; [|auto].
        apply andb_true_iff in Ek. destruct Ek as [E1 E2]. apply Nat.eqb_eq in E1. apply String.eqb_eq in E2. congruence.
      + intros i p Hi. rewrite Upk. destruct (Nat.eqb_spec i (size g)) as [->|]; [|auto].
        exfalso. assert (size g < size g) by (apply pkg_of_lt; eauto). lia.
  Qed.

  Lemma extends_installed g g' : extends g g' -> forall i path, installed_at g i path -> installed_at g' i path.
  Proof. intros (A & B & C) i path H; induction H; [constructor | econstructor; eauto]. Qed.

  Lemma tree_persists s a s' : SInv s [] -> legal a -> exec s a = Some (Ok s') ->
    forall path p, tree_has (s_g s) path p -> tree_has (s_g s') path p.
  Proof.
    intros I Hl He path p (i & n & Hi & Hn & Hp).
    pose proof (extends_exec _ _ _ I Hl He) as Hx.
    assert (pkg_of (s_g s') i = Some p) by (apply (proj2 (proj2 Hx)); unfold pkg_of; rewrite Hn; now subst).
    unfold pkg_of in H. destruct (getn (s_g s') i) as [n'|] eqn:E; [|discriminate].
    exists i, n'. repeat split; auto; [eapply extends_installed; eauto | congruence].
  Qed.

  Lemma tree_unique s : SInv s [] -> forall i, i < size (s_g s) ->
    (exists! path, installed_at (s_g s) i path) /\ installed_at (s_g s) i (node_path (s_g s) i).
  Proof.
    intros [I _ _ _ _] i Hi. assert (H : installed_at (s_g s) i (node_path (s_g s) i)) by (eapply installed_all; eauto).
    split; [|auto]. exists (node_path (s_g s) i). split; [auto|].
    intros path' H'. destruct (installed_path _ _ _ _ _ _ I _ _ H'). congruence.
  Qed.
  Lemma node_path_inj s : SInv s [] -> forall i j, i < size (s_g s) -> j < size (s_g s) ->
    node_path (s_g s) i = node_path (s_g s) j -> i = j.
  Proof.
    intros [I _ _ _ _] i j Hi Hj E. eapply installed_inj; [eapply installed_all; eauto|].
    rewrite E. eapply installed_all; eauto.
  Qed.

  (** *** C03 *)
  Lemma req_declares g i x s t : req_of g i x = Some (s, t) <-> declares g i x s t.
  Proof. unfold req_of, declares. destruct (getn g i) as [n|]; split; [eauto | intros (n' & E & ?); congruence | easy | intros (n' & E & ?); congruence]. Qed.

  Lemma dep_linked s i x ei : SInv s [] -> dep_of (s_g s) i x = Some ei ->
    exists sp t c, declares (s_g s) i x sp t /\ linked (s_g s) i x sp t c /\ name_of (s_g s) c = x /\ acceptable rsat canon deliver (s_g s) c sp.
  Proof.
    intros [I _ _ _ _] H. destruct (gi_dep _ _ _ _ _ _ I _ _ _ H) as ([f c sp t] & He & Hf & Hr & Hn & Hz & Hg). cbn in *. subst f.
    exists sp, t, c. rewrite <- req_declares. repeat split; auto.
    - unfold dep_of in H. destruct (getn (s_g s) i) as [n|] eqn:En; [|discriminate]. exists n, ei. auto.
    - destruct Hg as (p & Hp & Hg). unfold pkg_of in Hp. destruct (getn (s_g s) c) as [n|] eqn:En; [|discriminate].
      inversion Hp; subst p. exists n; auto.
  Qed.
  Lemma linked_dep g i x sp t c : linked g i x sp t c -> exists ei, dep_of g i x = Some ei /\ nth_error (g_edges g) ei = Some (mkEdge i c sp t).
  Proof. intros (n & ei & Hn & Hd & He). exists ei. unfold dep_of. rewrite Hn. auto. Qed.

  Lemma finished_nil s : SInv s [] -> finished s = true -> s_q s = [] /\ waiting s = [].
  Proof.
    intros [_ C _ _ _] H. unfold finished in H. destruct (s_q s); [|discriminate]. split; [auto|].
    apply Nat.eqb_eq in H. destruct (waiting s); [auto | rewrite H in C; discriminate].
  Qed.

  Lemma trichotomy s : SInv s [] -> forall i x sp t, declares (s_g s) i x sp t ->
      (In i (s_q s) /\ ~ (exists c, linked (s_g s) i x sp t c) /\ ~ In (i, x) (map dkey (waiting s)))
   \/ (~ In i (s_q s) /\ (exists c, linked (s_g s) i x sp t c) /\ ~ In (i, x) (map dkey (waiting s)))
   \/ (~ In i (s_q s) /\ ~ (exists c, linked (s_g s) i x sp t c) /\ In (mkDep x sp t i) (waiting s)).
  Proof.
    intros SI i x sp t Hd. pose proof SI as [I C K S N]. rewrite <- req_declares in Hd.
    assert (Hi : i < size (s_g s)) by (eapply req_of_lt; eauto).
    destruct (in_dec Nat.eq_dec i (s_q s)) as [Hq|Hq].
    - left. split; [auto|]. destruct (gi_q _ _ _ _ _ _ I) as [_ Hqq]. destruct (Hqq i Hq) as (_ & Hnd & _). split.
      + intros (c & Hc). destruct (linked_dep _ _ _ _ _ _ Hc) as (ei & He & _). rewrite Hnd in He. discriminate.
      + intros Hin. apply in_map_iff in Hin. destruct Hin as (d & Hk & Hin). unfold dkey in Hk. inversion Hk; subst.
        destruct (gi_P _ _ _ _ _ _ I d Hin) as (_ & Hnq & _). auto.
    - right. destruct (dep_of (s_g s) i x) as [ei|] eqn:Ed.
      + left. split; [auto|]. split.
        * destruct (dep_linked _ _ _ _ SI Ed) as (sp' & t' & c & Hdec & Hl & _).
          rewrite <- req_declares, Hd in Hdec. inversion Hdec; subst. eauto.
        * intros Hin. apply in_map_iff in Hin. destruct Hin as (d & Hk & Hin). unfold dkey in Hk. inversion Hk; subst.
          destruct (gi_P _ _ _ _ _ _ I d Hin) as (_ & _ & Hnd & _). congruence.
      + right. split; [auto|]. split.
        * intros (c & Hc). destruct (linked_dep _ _ _ _ _ _ Hc) as (ei & He & _). congruence.
        * destruct (gi_all _ _ _ _ _ _ I i x _ Hi Hq Hd) as [?|(d & Hin & Hk)]; [congruence|].
          unfold dkey in Hk. inversion Hk; subst.
          destruct (gi_P _ _ _ _ _ _ I d Hin) as (_ & _ & _ & Hr). rewrite Hr in Hd. inversion Hd; subst.
          destruct d; exact Hin.
  Qed.

  Lemma progress s : SInv s [] -> finished s = false ->
    (exists r, exec s APop = Some r) \/ (exists k spec, forall o, exists r, exec s (AChunk k [(spec, o)]) = Some r).
  Proof.
    intros SI Hf. unfold finished in Hf. destruct (s_q s) as [|i q] eqn:Eq.
    - right. destruct (pull_inv _ _ _ (length (s_sink s)) s [] SI) as [SI1 HW].
      destruct (s_fetches (pull (length (s_sink s)) s)) as [|[sp l] f] eqn:Ef.
      + exfalso. assert (waiting (pull (length (s_sink s)) s) = []).
        { unfold waiting. rewrite Ef. cbn. rewrite app_nil_r. unfold pull; cbn. apply skipn_all. }
        rewrite H in HW. apply Permutation_nil in HW. pose proof (si_cnt _ _ _ _ _ SI) as C.
        rewrite HW in C. cbn in C. rewrite C in Hf. discriminate.
      + exists (length (s_sink s)), sp. intros o. cbn [ResolverModel.exec]. rewrite Eq, Hf.
        cbn [existsb fst]. rewrite Ef. cbn [aget]. rewrite (proj2 (pspec_eqb_spec sp sp) eq_refl). cbn. eauto.
    - left. cbn. unfold pop_step. rewrite Eq. eauto.
  Qed.

  (** *** C02 *)
  Lemma calm_visible root pkg m name s : new_node name pkg m true = Ok root -> reach_calm root s ->
    forall i x sp t c, linked (s_g s) i x sp t c -> visible (s_g s) i x c.
  Proof.
    intros Hr Hc i x sp t c Hl.
    pose proof (reach_inv _ _ _ _ _ _ _ _ _ _ _ _ _ _ Hr (reach_calm_reach _ _ _ _ _ _ _ _ _ _ _ Hc)) as SI.
    destruct (reach_calm_inv _ _ _ _ _ _ _ _ _ _ _ _ _ _ Hr Hc) as [L _].
    destruct (linked_dep _ _ _ _ _ _ Hl) as (ei & Hd & He).
    destruct SI as [I _ _ _ _]. apply (lookup_visible _ _ _ _ _ _ I); [eapply dep_of_lt; eauto|].
    change c with (e_to (mkEdge i c sp t)). eapply L; eauto.
  Qed.
End Evolve.
