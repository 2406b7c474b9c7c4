(** * A generic principle for facts about whole runs of the resolver.
    [J k g q P] is a property of the graph, the queue and the dependencies still to be settled, with a
    budget [k]; if settling one dependency and popping one package each keep it while spending at least
    [w], then so does every step of the resolver, under every schedule. *)
From Verif Require Import Base Types ResolverModel ResolverProofs ResolverRun.
From Coq Require Import Permutation.

Section Steps.
  Variable rsat : range -> version -> bool.
  Variable canon : string -> option string.
  Variable parse_dep : string -> string -> res err pspec.
  Variable lnode : Type.
  Variable lnode_path : lnode -> list string.
  Variable lnode_manifest : lnode -> manifest.
  Variable to_package : lnode -> res err (option package).
  Variable deliver : pspec -> outcome -> Prop.
  Variable lock : option (lockpkgs lnode).

  Notation GInv := (GInv rsat canon deliver).
  Notation SInv := (SInv rsat canon deliver).
  Notation satisfy_dependency := (satisfy_dependency rsat canon).
  Notation place_child := (place_child rsat canon parse_dep).
  Notation process_deps := (process_deps rsat canon parse_dep lnode lnode_path lnode_manifest to_package lock).
  Notation exec := (exec rsat canon parse_dep lnode lnode_path lnode_manifest to_package lock).
  Notation legal := (legal deliver).
  Notation reach := (reach rsat canon parse_dep lnode lnode_path lnode_manifest to_package deliver lock).
  Notation new_node := (new_node parse_dep).

  (** where the package placed for [d] came from *)
  Definition provided (g : graph) (d : dep) (p : package) (m : manifest) (tp : option (list string)) : Prop :=
    (tp = None /\ deliver (d_spec d) (Ok (p, m)))
    \/ exists lf ln, lock = Some lf
         /\ satisfy_from_lockfile rsat canon lnode to_package g (d_node d) lf (d_name d) (d_spec d) = Ok (Some (p, ln))
         /\ m = lnode_manifest ln /\ tp = Some (lnode_path ln).

  Variable w : nat.
  Variable J : nat -> graph -> list nat -> list dep -> Prop.
  Definition spends (k : nat) g q P := exists k', k' + w <= k /\ J k' g q P.
  Hypothesis J_perm : forall k g q q' P P', Permutation q q' -> Permutation P P' -> J k g q P -> J k g q' P'.
  Hypothesis J_sat : forall k g q P d g' x, GInv g q (d :: P) -> J k g q (d :: P) ->
    satisfy_dependency g d = Ok (Some (g', x)) -> spends k g' q P.
  Hypothesis J_place : forall k g q P d p m tp g' ci, GInv g q (d :: P) -> J k g q (d :: P) ->
    satisfy_dependency g d = Ok None -> provided g d p m tp ->
    place_child g d p m tp = Ok (g', ci) -> spends k g' (q ++ [ci]) P.
  Hypothesis J_pop : forall k g i q P n, GInv g (i :: q) P -> J k g (i :: q) P -> getn g i = Some n ->
    spends k g q (deps_of i n ++ P).

  Definition JS (k : nat) (s : st) (todo : list dep) : Prop := J k (s_g s) (s_q s) (todo ++ waiting s).

  Lemma process_dep_J k s d todo s' : SInv s (d :: todo) -> JS k s (d :: todo) ->
    process_dep rsat canon parse_dep lnode lnode_path lnode_manifest to_package lock s d = Ok s' ->
    exists k', k' <= k /\ JS k' s' todo.
  Proof.
    intros [I C K S N] HJ H. unfold process_dep in H.
    destruct (satisfy_dependency (s_g s) d) as [[[g' x]|]| |] eqn:E; cbn in H; try discriminate.
    - inversion H; subst. destruct (J_sat _ _ _ _ _ _ _ I HJ E) as (k' & Hk & HJ'). exists k'; split; [lia | exact HJ'].
    - set (lk := match lock with Some lf => satisfy_from_lockfile rsat canon lnode to_package (s_g s) (d_node d) lf (d_name d) (d_spec d) | None => Ok None end) in H.
      destruct lk as [[[p ln]|]| |] eqn:El; cbn in H; try discriminate.
      + destruct (place_child (s_g s) d p (lnode_manifest ln) (Some (lnode_path ln))) as [[g' ci]| |] eqn:Ep; cbn in H; try discriminate.
        inversion H; subst. unfold lk in El. destruct lock as [lf|] eqn:Elk; [|discriminate].
        destruct (J_place _ _ _ _ _ p (lnode_manifest ln) (Some (lnode_path ln)) g' ci I HJ E) as (k' & Hk & HJ'); auto.
        * right. exists lf, ln. auto.
        * exists k'; split; [lia | exact HJ'].
      + inversion H; subst. exists k; split; [lia|]. unfold JS in *; cbn.
        eapply J_perm; [reflexivity | | exact HJ]. unfold waiting; cbn.
        rewrite <- !app_assoc.
        transitivity (todo ++ d :: (s_sink s ++ concat (map snd (s_fetches s)))); [apply Permutation_middle|].
        apply Permutation_app_head. cbn. symmetry. apply Permutation_sym, Permutation_middle.
  Qed.
  Lemma process_deps_J l : forall k s todo s', SInv s (l ++ todo) -> JS k s (l ++ todo) -> process_deps s l = Ok s' ->
    exists k', k' <= k /\ JS k' s' todo.
  Proof.
    induction l as [|d t IH]; cbn; intros k s todo s' I HJ H; [inversion H; subst; eauto|].
    destruct (process_dep rsat canon parse_dep lnode lnode_path lnode_manifest to_package lock s d) as [s1| |] eqn:E; cbn in H; try discriminate.
    destruct (process_dep_J k s d (t ++ todo) s1 I HJ E) as (k1 & Hk1 & HJ1).
    destruct (IH k1 s1 todo s') as (k2 & Hk2 & HJ2); auto.
    - eapply process_dep_inv; eauto.
    - exists k2; split; [lia | auto].
  Qed.
  Lemma place_all_J p m l : forall k s todo s', SInv s (l ++ todo) -> JS k s (l ++ todo) ->
    (forall d, In d l -> deliver (d_spec d) (Ok (p, m))) ->
    place_all rsat canon parse_dep s p m l = Ok s' ->
    exists k', (match l with [] => k' | _ => k' + w end) <= k /\ JS k' s' todo.
  Proof.
    induction l as [|d t IH]; cbn; intros k s todo s' I HJ Hd H; [inversion H; subst; eauto|].
    destruct (place_fetched rsat canon parse_dep s p m d) as [s1| |] eqn:E; cbn in H; try discriminate.
    assert (exists k1, k1 + w <= k /\ JS k1 s1 (t ++ todo)) as (k1 & Hk1 & HJ1).
    { pose proof I as [Ig C K S N]. unfold place_fetched in E.
      destruct (satisfy_dependency (s_g s) d) as [[[g' x]|]| |] eqn:Es; cbn in E; try discriminate.
      - inversion E; subst. destruct (J_sat _ _ _ _ _ _ _ Ig HJ Es) as (k' & Hk & HJ'). exists k'; split; [lia | exact HJ'].
      - destruct (place_child (s_g s) d p m None) as [[g' ci]| |] eqn:Ep; cbn in E; try discriminate.
        inversion E; subst. destruct (J_place _ _ _ _ _ p m None g' ci Ig HJ Es) as (k' & Hk & HJ'); auto.
        + left. split; [auto|]. apply Hd. auto.
        + exists k'; split; [lia | exact HJ']. }
    destruct (IH k1 s1 todo s') as (k2 & Hk2 & HJ2); auto.
    - eapply (place_fetched_inv rsat canon parse_dep); [exact I | exists m; apply Hd; auto | exact E].
    - exists k2; split; [destruct t; lia | auto].
  Qed.
  Lemma result_step_J k s spec o s' : SInv s [] -> JS k s [] -> deliver spec o ->
    aget pspec_eqb spec (s_fetches s) <> None ->
    result_step rsat canon parse_dep s spec o = Ok s' -> exists k', k' + w <= k /\ JS k' s' [].
  Proof.
    intros [I C K S N] HJ Hd Hne H. unfold result_step in H.
    destruct o as [[p m]| |]; cbn in H; try discriminate.
    destruct (aget pspec_eqb spec (s_fetches s)) as [l|] eqn:E; [|congruence].
    assert (Hin : In (spec, l) (s_fetches s)) by (eapply aget_In; [apply pspec_eqb_spec | eauto]).
    pose proof (adel_fwait _ _ _ K E) as HP.
    assert (HW : Permutation (waiting s) (l ++ (s_sink s ++ fwait (adel pspec_eqb spec (s_fetches s))))).
    { unfold waiting. fold (fwait (s_fetches s)). rewrite HP. rewrite !app_assoc. apply Permutation_app_tail. apply Permutation_app_comm. }
    assert (Hl : l <> []) by (eapply N; eauto).
    match type of H with place_all _ _ _ ?s0 _ _ _ = _ => destruct (place_all_J p m l k s0 [] s') as (k' & Hk & HJ') end.
    - rewrite app_nil_r. constructor; cbn.
      + eapply GInv_perm; [reflexivity | | exact I]. exact HW.
      + unfold waiting; cbn. rewrite C, (Permutation_length HW), app_length. unfold fwait. lia.
      + unfold adel. clear -K. induction (s_fetches s) as [|[a b] t IH]; cbn in *; [constructor|].
        inversion K as [|? ? Hni K']; subst. destruct (negb (pspec_eqb spec a)); cbn; [|auto].
        constructor; [|auto]. intros Hin. apply Hni. apply in_map_iff in Hin. destruct Hin as (e & E1 & E2).
        apply filter_In in E2. apply in_map_iff. exists e. tauto.
      + intros sp l' d Hi Hd'. unfold adel in Hi. apply filter_In in Hi. eapply S; [apply Hi | auto].
      + intros sp l' Hi. unfold adel in Hi. apply filter_In in Hi. eapply N; apply Hi.
    - rewrite app_nil_r. unfold JS in *. cbn. eapply J_perm; [reflexivity | exact HW | exact HJ].
    - intros d Hdl. rewrite (S _ _ _ Hin Hdl). auto.
    - exact H.
    - exists k'. split; [destruct l; [congruence | auto] | auto].
  Qed.
  (* a result whose spec is no longer in flight (listed twice in a chunk) changes nothing *)
  Lemma result_step_J0 k s spec o s' : SInv s [] -> JS k s [] -> deliver spec o ->
    result_step rsat canon parse_dep s spec o = Ok s' -> exists k', k' <= k /\ JS k' s' [].
  Proof.
    intros I HJ Hd H. destruct (aget pspec_eqb spec (s_fetches s)) as [l|] eqn:E.
    - destruct (result_step_J k s spec o s' I HJ Hd) as (k' & Hk & HJ'); [congruence | auto | exists k'; split; [lia | auto]].
    - unfold result_step in H. destruct o as [[p m]| |]; cbn in H; try discriminate. rewrite E in H. inversion H; subst. eauto.
  Qed.
  Lemma results_step_J l : forall k s s', SInv s [] -> JS k s [] -> Forall (legal_result deliver) l ->
    results_step rsat canon parse_dep s l = Ok s' -> exists k', k' <= k /\ JS k' s' [].
  Proof.
    induction l as [|[sp o] t IH]; cbn; intros k s s' I HJ Hl H; [inversion H; subst; eauto|].
    inversion Hl as [|? ? Ho Ht]; subst.
    destruct (result_step rsat canon parse_dep s sp o) as [s1| |] eqn:E; cbn in H; try discriminate.
    destruct (result_step_J0 k s sp o s1 I HJ Ho E) as (k1 & Hk1 & HJ1).
    destruct (IH k1 s1 s') as (k2 & Hk2 & HJ2); auto; [eapply result_step_inv; eauto|].
    exists k2; split; [lia | auto].
  Qed.
  Lemma exec_J k s a s' : SInv s [] -> JS k s [] -> legal a -> exec s a = Some (Ok s') -> exists k', k' + w <= k /\ JS k' s' [].
  Proof.
    intros I HJ Hl H. destruct a as [|n rs]; cbn [ResolverModel.exec] in H.
    - pose proof I as [Ig C K S N]. unfold pop_step in H. destruct (s_q s) as [|i q] eqn:Eq; [discriminate|].
      destruct (getn (s_g s) i) as [nd|] eqn:En; [|discriminate]. injection H as H.
      unfold JS in HJ. rewrite Eq in HJ. cbn in HJ, Ig.
      destruct (J_pop k _ i q _ nd Ig HJ En) as (k1 & Hk1 & HJ1).
      destruct (process_deps_J (deps_of i nd) k1 (mkSt (s_g s) q (s_inflight s) (s_sink s) (s_fetches s)) [] s') as (k2 & Hk2 & HJ2).
      + rewrite app_nil_r. constructor; cbn; auto. eapply GInv_pop; eauto.
      + unfold JS; cbn. rewrite app_nil_r. exact HJ1.
      + exact H.
      + exists k2; split; [lia | auto].
    - destruct (s_q s) as [|? ?]; [|discriminate].
      destruct (s_inflight s =? 0); [discriminate|].
      destruct (existsb _ rs) eqn:Ex; [discriminate|].
      destruct rs as [|[sp o] rs]; [discriminate|].
      remember (results_step rsat canon parse_dep (pull n s) ((sp, o) :: rs)) as R eqn:ER.
      destruct R as [s1| |]; cbn [rbind] in H; try discriminate. injection H as <-. symmetry in ER.
      destruct (pull_inv _ _ _ n s [] I) as [I1 HW].
      assert (HJ0 : JS k (pull n s) []).
      { unfold JS in *. cbn. eapply J_perm; [reflexivity | symmetry; exact HW | exact HJ]. }
      inversion Hl as [|? ? Ho Ht]; subst. cbn in ER.
      destruct (result_step rsat canon parse_dep (pull n s) sp o) as [s0| |] eqn:E0; cbn in ER; try discriminate.
      destruct (result_step_J k (pull n s) sp o s0 I1 HJ0 Ho) as (k1 & Hk1 & HJ1); auto.
      { cbn [existsb fst] in Ex. apply orb_false_iff in Ex. destruct Ex as [Ex _].
        apply negb_false_iff in Ex. destruct (aget pspec_eqb sp (s_fetches (pull n s))); [congruence | discriminate]. }
      destruct (results_step_J rs k1 s0 s1) as (k2 & Hk2 & HJ2); auto; [eapply result_step_inv; eauto|].
      exists k2; split; [lia|]. unfold JS in *; cbn in *.
      eapply J_perm; [symmetry; apply sort_perm | reflexivity | exact HJ2].
  Qed.

  Lemma reach_J root pkg m name k : new_node name pkg m true = Ok root -> J k (init_graph root) [0] [] ->
    forall s, reach root s -> exists k', k' <= k /\ JS k' s [].
  Proof.
    intros Hr H0 s H. induction H as [|s a s' H IH Hl He]; [exists k; split; [lia | exact H0]|].
    destruct IH as (k1 & Hk1 & HJ1).
    destruct (exec_J k1 s a s') as (k2 & Hk2 & HJ2); auto; [eapply reach_inv; eauto|].
    exists k2; split; [lia | auto].
  Qed.

  (** runs, counted *)
  Inductive steps (root : node) : nat -> st -> Prop :=
  | steps_init : steps root 0 (init root)
  | steps_step n s a s' : steps root n s -> legal a -> exec s a = Some (Ok s') -> steps root (S n) s'.
  Lemma steps_reach root n s : steps root n s -> reach root s.
  Proof. induction 1; [constructor | econstructor; eauto]. Qed.
  Lemma reach_steps root s : reach root s -> exists n, steps root n s.
  Proof. induction 1 as [|s a s' H [n IH] Hl He]; [exists 0; constructor | exists (S n); econstructor; eauto]. Qed.
  Lemma steps_J root pkg m name k : new_node name pkg m true = Ok root -> J k (init_graph root) [0] [] ->
    forall n s, steps root n s -> exists k', k' + n * w <= k /\ JS k' s [].
  Proof.
    intros Hr H0 n s H. induction H as [|n s a s' H IH Hl He]; [exists k; split; [lia | exact H0]|].
    destruct IH as (k1 & Hk1 & HJ1).
    destruct (exec_J k1 s a s') as (k2 & Hk2 & HJ2); auto; [eapply reach_inv; eauto; eapply steps_reach; eauto|].
    exists k2; split; [cbn; lia | auto].
  Qed.
End Steps.
