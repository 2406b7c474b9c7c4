(** * Termination of resolution, and what it produces when nothing conflicts *)
From Verif Require Import Base Types ResolverModel ResolverProofs ResolverRun ResolverSpec ResolverThms ResolverSteps.
From Coq Require Import Permutation.

Section ReqsFacts.
  Variable parse_dep : string -> string -> res err pspec.

  Lemma sput_In V k (v : V) : forall l e, In e (sput k v l) -> e = (k, v) \/ In e l.
  Proof.
    induction l as [|[k' v'] t IH]; cbn; intros e H.
    - destruct H as [<-|[]]; auto.
    - destruct (String.eqb_spec k k'); cbn in H.
      + subst. destruct H as [<-|H]; auto.
      + destruct H as [<-|H]; auto. apply IH in H. tauto.
  Qed.
  Lemma sput_len V k (v : V) : forall l, length (sput k v l) <= S (length l).
  Proof. induction l as [|[k' v'] t IH]; cbn; [lia|]. destruct (String.eqb k k'); cbn; lia. Qed.

  Lemma add_reqs_In l t : forall acc r, add_reqs parse_dep l t acc = Ok r ->
    length r <= length l + length acc /\
    forall x sp t', In (x, (sp, t')) r -> In (x, (sp, t')) acc \/ exists nm str, In (nm, str) l /\ x = ufold nm /\ parse_dep nm str = Ok sp.
  Proof.
    induction l as [|[nm str] tl IH]; cbn; intros acc r H; [inversion H; subst; auto|].
    destruct (parse_dep nm str) as [sp0| |] eqn:Ep; cbn in H; try discriminate.
    destruct (IH _ _ H) as [Hl Hin]. pose proof (sput_len _ (ufold nm) (sp0, t) acc). split; [lia|].
    intros x sp t' Hi. destruct (Hin _ _ _ Hi) as [Ha|(nm' & str' & A & B)].
    - apply sput_In in Ha. destruct Ha as [Ha|Ha]; [|auto]. inversion Ha; subst. right. exists nm, str. auto.
    - right. exists nm', str'. split; [now right | auto].
  Qed.

  (** the declared dependencies of a package that is not the root *)
  Lemma new_node_reqs name p m n : new_node parse_dep name p m false = Ok n ->
    length (n_reqs n) <= length (m_deps m ++ m_opt m) /\
    forall x sp t, In (x, (sp, t)) (n_reqs n) -> exists nm str, In (nm, str) (m_deps m ++ m_opt m) /\ x = ufold nm /\ parse_dep nm str = Ok sp.
  Proof.
    unfold new_node. intros H.
    destruct (add_reqs parse_dep (m_deps m) Prod []) as [r1| |] eqn:E1; cbn in H; try discriminate.
    destruct (add_reqs parse_dep (m_opt m) Opt r1) as [r2| |] eqn:E2; cbn in H; try discriminate.
    injection H as <-. cbn. destruct (add_reqs_In _ _ _ _ E1) as [L1 I1]. destruct (add_reqs_In _ _ _ _ E2) as [L2 I2].
    cbn in L1. split; [rewrite app_length; lia|]. intros x sp t Hi.
    destruct (I2 _ _ _ Hi) as [Ha|(nm & str & A & B)].
    - destruct (I1 _ _ _ Ha) as [[]|(nm & str & A & B)]. exists nm, str. split; [apply in_app_iff; auto | auto].
    - exists nm, str. split; [apply in_app_iff; auto | auto].
  Qed.
  Lemma new_node_reqs_indep name name' p p' m n b : new_node parse_dep name p m b = Ok n ->
    exists n', new_node parse_dep name' p' m b = Ok n' /\ n_reqs n' = n_reqs n.
  Proof.
    unfold new_node. intros H.
    destruct (add_reqs parse_dep (m_deps m) Prod []) as [r1| |] eqn:E1; cbn in *; try discriminate.
    destruct (add_reqs parse_dep (m_opt m) Opt r1) as [r2| |] eqn:E2; cbn in *; try discriminate.
    destruct b; cbn in *.
    - destruct (add_reqs parse_dep (m_dev m) Dev r2) as [r3| |] eqn:E3; cbn in *; try discriminate.
      injection H as <-. cbn. eauto.
    - injection H as <-. cbn. eauto.
  Qed.
End ReqsFacts.

Section Term.
  Variable rsat : range -> version -> bool.
  Variable canon : string -> option string.
  Variable parse_dep : string -> string -> res err pspec.
  Variable deliver : pspec -> outcome -> Prop.
  Variable lnode : Type.
  Variable lnode_path : lnode -> list string.
  Variable lnode_manifest : lnode -> manifest.
  Variable to_package : lnode -> res err (option package).

  Notation GInv := (GInv rsat canon deliver).
  Notation sat := (satisfies rsat canon).
  Notation satisfy_dependency := (satisfy_dependency rsat canon).
  Notation place_child := (place_child rsat canon parse_dep).
  Notation exec := (exec rsat canon parse_dep lnode lnode_path lnode_manifest to_package None).
  Notation reach := (reach rsat canon parse_dep lnode lnode_path lnode_manifest to_package deliver None).
  Notation steps := (steps rsat canon parse_dep lnode lnode_path lnode_manifest to_package deliver None).
  Notation provided := (provided rsat canon lnode lnode_path lnode_manifest to_package deliver None).
  Notation new_node := (new_node parse_dep).

  Fixpoint sumf {A} (f : A -> nat) (l : list A) : nat := match l with [] => 0 | a :: t => f a + sumf f t end.
  Lemma sumf_app A (f : A -> nat) a b : sumf f (a ++ b) = sumf f a + sumf f b.
  Proof. induction a as [|x t IH]; cbn; [auto | rewrite IH; lia]. Qed.
  Lemma sumf_perm A (f : A -> nat) a b : Permutation a b -> sumf f a = sumf f b.
  Proof. induction 1; cbn; lia. Qed.
  Lemma sumf_ext A (f h : A -> nat) l : (forall x, In x l -> f x = h x) -> sumf f l = sumf h l.
  Proof. induction l as [|x t IH]; cbn; intros H; [auto|]. rewrite (H x) by auto. rewrite IH; auto. Qed.
  Lemma sumf_le A (f : A -> nat) b l : (forall x, In x l -> f x <= b) -> sumf f l <= length l * b.
  Proof. induction l as [|x t IH]; cbn; intros H; [lia|]. pose proof (H x (or_introl eq_refl)). specialize (IH (fun y Hy => H y (or_intror Hy))). lia. Qed.
  Lemma sumf_map A C (f : A -> nat) (h : C -> A) l : sumf f (map h l) = sumf (fun c => f (h c)) l.
  Proof. induction l as [|x t IH]; cbn; auto. Qed.

  Definition reqs_at (g : graph) (i : nat) : list (string * (pspec * deptype)) :=
    match getn g i with Some n => n_reqs n | None => [] end.

  Lemma reqs_sat g q P d g' x : GInv g q (d :: P) -> satisfy_dependency g d = Ok (Some (g', x)) ->
    forall j, reqs_at g' j = reqs_at g j.
  Proof.
    intros I H j. destruct (satisfy_some _ _ _ _ _ _ H) as (nx & Hr & Hx & Hs & ->).
    destruct (gi_P _ _ _ _ _ _ I d (or_introl eq_refl)) as (Hdn & _).
    destruct (link_dep_upd (mkGraph (g_nodes g) (g_edges g ++ [mkEdge (d_node d) x (d_spec d) (d_type d)])) (d_node d) (d_name d) (length (g_edges g)))
        as [(Usz & Upar & Uch & Unm & Upk & Urq & Udp & Unr) _]; [exact Hdn|].
    unfold reqs_at. set (g1 := link_dep _ _ _ _) in *.
    destruct (getn g1 j) as [n|] eqn:E.
    - destruct (Unr _ _ E) as (n0 & E0 & Hn). unfold getn in *; cbn in E0. rewrite E0. auto.
    - destruct (getn g j) as [n|] eqn:E0; [|auto]. exfalso.
      assert (j < size g) by (apply getn_lt; eauto). assert (Hj : j < size g1) by (rewrite Usz; exact H0).
      apply getn_lt in Hj. destruct Hj; congruence.
  Qed.
  Lemma reqs_place g q P d p m tp g' ci : GInv g q (d :: P) -> place_child g d p m tp = Ok (g', ci) ->
    exists cn, new_node (d_name d) p m false = Ok cn /\ ci = size g /\
    forall j, reqs_at g' j = if j =? size g then n_reqs cn else reqs_at g j.
  Proof.
    intros I Hpl. pose proof (ginv_parlt _ _ _ _ _ _ I) as Hp.
    destruct (gi_P _ _ _ _ _ _ I d (or_introl eq_refl)) as (Hdn & _).
    destruct (place_child_inv _ _ _ _ _ _ _ _ _ _ Hdn Hp Hpl) as (cn & tgt & Hcn & -> & U & Htl & Hut & Hpass).
    exists cn. repeat split; auto. destruct U as (Usz & Hed & Upar & Uch & Unm & Upk & Urq & Udp & Unr).
    intros j. unfold reqs_at. destruct (getn g' j) as [n|] eqn:E.
    - specialize (Unr _ _ E). destruct (j =? size g); [auto|]. destruct Unr as (n0 & E0 & Hn). rewrite E0. auto.
    - assert (~ j < S (size g)). { rewrite <- Usz. intros Hj. apply getn_lt in Hj. destruct Hj; congruence. }
      destruct (Nat.eqb_spec j (size g)); [lia|]. destruct (getn g j) as [n0|] eqn:E0; [|auto].
      assert (j < size g) by (apply getn_lt; eauto). lia.
  Qed.

  (** ** acyclic registries *)
  Section Acyclic.
    Variable rk : pspec -> nat.
    Variable B : nat.
    Hypothesis acyc : forall s p m, deliver s (Ok (p, m)) ->
      length (m_deps m ++ m_opt m) <= B /\
      forall nm str s', In (nm, str) (m_deps m ++ m_opt m) -> parse_dep nm str = Ok s' -> rk s' < rk s.

    Fixpoint wt (r : nat) : nat := match r with 0 => 2 | S r' => 2 + B * wt r' end.
    Lemma wt_step r : r = 0 \/ exists r', r = S r'. Proof. destruct r; eauto. Qed.
    Lemma wt_mono r r' : r <= r' -> wt r <= wt r'.
    Proof.
      revert r'. induction r as [|r IH]; intros r' H.
      - destruct r'; cbn; lia.
      - destruct r' as [|r']; [lia|]. cbn. assert (wt r <= wt r') by (apply IH; lia). nia.
    Qed.
    Definition rw (e : string * (pspec * deptype)) : nat := wt (rk (fst (snd e))).
    Definition nw (g : graph) (i : nat) : nat := 1 + sumf rw (reqs_at g i).
    Definition dw (d : dep) : nat := wt (rk (d_spec d)).
    Definition pot (g : graph) (q : list nat) (P : list dep) : nat := sumf (nw g) q + sumf dw P.

    Lemma placed_weight s p m name n : deliver s (Ok (p, m)) -> new_node name p m false = Ok n ->
      2 + sumf rw (n_reqs n) <= wt (rk s).
    Proof.
      intros Hd Hn. destruct (acyc _ _ _ Hd) as [HB Hr]. destruct (new_node_reqs _ _ _ _ _ Hn) as [Hlen Hin].
      assert (Hall : forall e, In e (n_reqs n) -> S (rk (fst (snd e))) <= rk s).
      { intros [x [sp t]] He. cbn. destruct (Hin _ _ _ He) as (nm & str & A & _ & Hp). apply (Hr _ _ _ A) in Hp. lia. }
      destruct (rk s) as [|r] eqn:Er.
      - destruct (n_reqs n) as [|e l]; [cbn; lia|]. specialize (Hall e (or_introl eq_refl)). lia.
      - cbn [wt]. assert (sumf rw (n_reqs n) <= length (n_reqs n) * wt r).
        { apply sumf_le. intros e He. unfold rw. apply wt_mono. specialize (Hall _ He). lia. }
        assert (length (n_reqs n) * wt r <= B * wt r) by (apply Nat.mul_le_mono_r; lia). lia.
    Qed.
    Lemma wt_pos r : 2 <= wt r. Proof. destruct r; cbn; lia. Qed.

    Lemma steps_bound root pkg m name : new_node name pkg m true = Ok root ->
      forall n s, steps root n s -> n <= pot (init_graph root) [0] [].
    Proof.
      intros Hr n s Hs.
      destruct (steps_J rsat canon parse_dep lnode lnode_path lnode_manifest to_package deliver None 1
                  (fun k g q P => pot g q P <= k)) with (root := root) (pkg := pkg) (m := m) (name := name) (k := pot (init_graph root) [0] []) (n := n) (s := s)
        as (k' & Hk & _); auto; try lia.
      - intros k g q q' P P' Hq HP H. unfold pot in *. rewrite <- (sumf_perm _ (nw g) _ _ Hq), <- (sumf_perm _ dw _ _ HP). auto.
      - intros k g q P d g' x I H Hsat. exists (pot g' q P). split; [|lia].
        unfold pot in *. rewrite (sumf_ext _ (nw g') (nw g)); [|intros j _; unfold nw; rewrite (reqs_sat _ _ _ _ _ _ I Hsat); auto].
        cbn in H. unfold dw in H at 1. pose proof (wt_pos (rk (d_spec d))). lia.
      - intros k g q P d p m' tp g' ci I H Hsat Hpr Hpl. exists (pot g' (q ++ [ci]) P). split; [|lia].
        destruct (reqs_place _ _ _ _ _ _ _ _ _ I Hpl) as (cn & Hcn & -> & Hreq).
        destruct Hpr as [[-> Hdel]|(lf & ln & E & _)]; [|discriminate].
        unfold pot in *. rewrite sumf_app. rewrite (sumf_ext _ (nw g') (nw g) q).
        + cbn [sumf] in *. unfold nw at 2. rewrite Hreq, Nat.eqb_refl. unfold dw in H at 1.
          pose proof (placed_weight _ _ _ _ _ Hdel Hcn). lia.
        + intros j Hj. unfold nw. rewrite Hreq. destruct (Nat.eqb_spec j (size g)) as [->|]; [|auto].
          destruct (gi_q _ _ _ _ _ _ I) as [_ Hq]. destruct (Hq _ Hj). lia.
      - intros k g i q P nd I H Hn. exists (pot g q (deps_of i nd ++ P)). split; [|lia].
        unfold pot in *. cbn [sumf] in H. unfold nw in H at 1. unfold reqs_at in H. rewrite Hn in H.
        rewrite sumf_app. unfold deps_of. rewrite sumf_map.
        rewrite (sumf_ext _ (fun c => dw _) rw) by (intros [y [sp t]] _; reflexivity). lia.
    Qed.
  End Acyclic.

  (** ** dist-tag dependencies: every tag request creates a package of its own *)
  Definition is_tag (s : pspec) : Prop := exists sc n t, target s = SNpm sc n (Some (VTag t)).
  Lemma tag_unsat r s : is_tag s -> sat r s <> Ok true.
  Proof. intros (sc & n & t & E). unfold satisfies. rewrite E. destruct r; discriminate. Qed.

  Definition tagJ (k : nat) (g : graph) (q : list nat) (P : list dep) : Prop :=
    (forall i j e e', nth_error (g_edges g) i = Some e -> nth_error (g_edges g) j = Some e' ->
        is_tag (e_spec e) -> is_tag (e_spec e') -> e_to e = e_to e' -> i = j)
    /\ (forall j, j < size g -> exists x sp t, req_of g j x = Some (sp, t) /\ is_tag sp).

  Section Tags.
    (** every package of the registry has a dependency requested by dist-tag *)
    Hypothesis all_tag : forall s p m name n, deliver s (Ok (p, m)) -> new_node name p m false = Ok n ->
      exists x sp t, sget x (n_reqs n) = Some (sp, t) /\ is_tag sp.
    Variables (root : node) (pkg : package) (m : manifest) (name : string).
    Hypothesis Hroot : new_node name pkg m true = Ok root.
    Hypothesis root_tag : exists x sp t, sget x (n_reqs root) = Some (sp, t) /\ is_tag sp.

    Lemma nth_snoc A (l : list A) a i x : nth_error (l ++ [a]) i = Some x -> (i = length l /\ x = a) \/ (i < length l /\ nth_error l i = Some x).
    Proof.
      intros H. destruct (Nat.lt_ge_cases i (length l)).
      - right. split; [auto|]. now rewrite nth_error_app1 in H.
      - left. rewrite nth_error_app2 in H by auto. destruct (i - length l) as [|k] eqn:E; cbn in H; [|destruct k; discriminate].
        split; [lia | congruence].
    Qed.

    Lemma tag_reach s : reach root s -> tagJ 0 (s_g s) (s_q s) (waiting s).
    Proof.
      intros Hs.
      destruct (reach_J rsat canon parse_dep lnode lnode_path lnode_manifest to_package deliver None 0 tagJ)
        with (root := root) (pkg := pkg) (m := m) (name := name) (k := 0) (s := s) as (k' & _ & H); auto.
      - intros k g q P d g' x I [H1 H2] Hsat. exists k. split; [lia|].
        destruct (satisfy_some _ _ _ _ _ _ Hsat) as (nx & Hr & Hx & Hss & ->).
        destruct (gi_P _ _ _ _ _ _ I d (or_introl eq_refl)) as (Hdn & _).
        set (e0 := mkEdge (d_node d) x (d_spec d) (d_type d)).
        destruct (link_dep_upd (mkGraph (g_nodes g) (g_edges g ++ [e0])) (d_node d) (d_name d) (length (g_edges g)))
          as [(Usz & Upar & Uch & Unm & Upk & Urq & Udp & Unr) Hed]; [exact Hdn|].
        split.
        + rewrite Hed. cbn. intros i j e e' Hi Hj Ht Ht' E.
          destruct (nth_snoc _ _ _ _ _ Hi) as [[-> ->]|[Li Hi']].
          { exfalso. exact (tag_unsat _ _ Ht Hss). }
          destruct (nth_snoc _ _ _ _ _ Hj) as [[-> ->]|[Lj Hj']].
          { exfalso. exact (tag_unsat _ _ Ht' Hss). }
          eauto.
        + intros j Hj. rewrite Usz in Hj. destruct (H2 j Hj) as (y & sp & t & Hq' & Ht). exists y, sp, t. rewrite Urq. auto.
      - intros k g q P d p m' tp g' ci I [H1 H2] Hsat Hpr Hpl. exists k. split; [lia|].
        pose proof (ginv_parlt _ _ _ _ _ _ I) as Hp.
        destruct (gi_P _ _ _ _ _ _ I d (or_introl eq_refl)) as (Hdn & _).
        destruct (place_child_inv _ _ _ _ _ _ _ _ _ _ Hdn Hp Hpl) as (cn & tgt & Hcn & -> & U & Htl & Hut & Hpass).
        destruct U as (Usz & Hed & Upar & Uch & Unm & Upk & Urq & Udp & Unr).
        destruct Hpr as [[-> Hdel]|(lf & ln & E & _)]; [|discriminate].
        assert (Hold : forall i e, nth_error (g_edges g) i = Some e -> e_to e < size g).
        { intros i e He. apply nth_error_In in He. apply (gi_edge _ _ _ _ _ _ I _ He). }
        split.
        + rewrite Hed. intros i j e e' Hi Hj Ht Ht' E.
          destruct (nth_snoc _ _ _ _ _ Hi) as [[-> ->]|[Li Hi']], (nth_snoc _ _ _ _ _ Hj) as [[-> ->]|[Lj Hj']]; auto.
          * apply Hold in Hj'. cbn in E. lia.
          * apply Hold in Hi'. cbn in E. lia.
          * eauto.
        + intros j Hj. rewrite Usz in Hj. destruct (Nat.eqb_spec j (size g)) as [->|Hne].
          * destruct (all_tag _ _ _ _ _ Hdel Hcn) as (x & sp & t & A & Ht). exists x, sp, t. rewrite Urq, Nat.eqb_refl. auto.
          * destruct (H2 j) as (y & sp & t & Hq' & Ht); [lia|]. exists y, sp, t. rewrite Urq.
            destruct (Nat.eqb_spec j (size g)); [lia | auto].
      - intros k g i q P n I H Hn. exists k. split; [lia | auto].
      - split.
        + intros i j e e' Hi. destruct i; discriminate.
        + intros j Hj. unfold size in Hj; cbn in Hj. assert (j = 0) by lia. subst. exact root_tag.
    Qed.

    Lemma never_finished s : reach root s -> finished s = false.
    Proof.
      intros Hs. destruct (finished s) eqn:Hf; [exfalso|auto].
      pose proof (reach_inv _ _ _ _ _ _ _ _ _ _ _ _ _ _ Hroot Hs) as SI.
      destruct (finished_nil _ _ _ _ SI Hf) as [Hq Hw].
      destruct (tag_reach s Hs) as [Hinj Hall]. pose proof SI as [I _ _ _ _].
      (* choose, for every package, a tag edge leaving it *)
      assert (Hch : forall j, j < size (s_g s) -> exists ei e, nth_error (g_edges (s_g s)) ei = Some e /\ e_from e = j /\ is_tag (e_spec e) /\ e_to e < size (s_g s) /\ e_to e <> 0).
      { intros j Hj. destruct (Hall j Hj) as (x & sp & t & Hr & Ht).
        destruct (gi_all _ _ _ _ _ _ I j x (sp, t) Hj) as [Hd|(d & Hd & _)]; auto.
        - rewrite Hq. auto.
        - destruct (dep_of (s_g s) j x) as [ei|] eqn:Ed; [|congruence].
          destruct (gi_dep _ _ _ _ _ _ I _ _ _ Ed) as (e & He & Hfrom & Hreq & _ & Hnz & _).
          rewrite Hr in Hreq. inversion Hreq; subst. exists ei, e. repeat split; auto.
          apply nth_error_In in He. apply (gi_edge _ _ _ _ _ _ I _ He).
        - rewrite Hw in Hd. destruct Hd. }
      assert (Hm : forall n, n <= size (s_g s) -> exists l, length l = n /\ NoDup l /\ incl l (seq 1 (size (s_g s) - 1)) /\
                 forall c, In c l -> exists ei e, nth_error (g_edges (s_g s)) ei = Some e /\ e_to e = c /\ e_from e < n /\ is_tag (e_spec e)).
      { induction n as [|n IH]; intros Hn.
        - exists []. repeat split; [constructor | easy | easy].
        - destruct IH as (l & Hl & Hnd & Hi & Hc); [lia|].
          destruct (Hch n) as (ei & e & He & Hfrom & Ht & Hlt & Hnz); [lia|].
          exists (e_to e :: l). repeat split; [cbn; lia | | |].
          + constructor; [|auto]. intros Hin. destruct (Hc _ Hin) as (ei' & e' & He' & Hto & Hf' & Ht').
            assert (ei' = ei) by (eapply Hinj; eauto). subst ei'. rewrite He in He'. inversion He'; subst. lia.
          + intros c [<-|Hin]; [apply in_seq; lia | auto].
          + intros c [<-|Hin]; [exists ei, e; repeat split; auto; lia|].
            destruct (Hc _ Hin) as (ei' & e' & He' & Hto & Hf' & Ht'). exists ei', e'. repeat split; auto; lia. }
      destruct (Hm (size (s_g s)) (le_n _)) as (l & Hl & Hnd & Hi & _).
      pose proof (NoDup_incl_length Hnd Hi) as Hlen. rewrite seq_length in Hlen.
      destruct (gi_root _ _ _ _ _ _ I). lia.
    Qed.
  End Tags.

  (** ** registries without version conflicts *)
  Section Flat.
    Variables (root : node) (pkg : package) (m : manifest) (name : string).
    Hypothesis Hroot : new_node name pkg m true = Ok root.

    (** the requests that can come up: "package directory x, spec sp" *)
    Inductive wanted : string -> pspec -> Prop :=
    | wanted_root x sp t : sget x (n_reqs root) = Some (sp, t) -> wanted x sp
    | wanted_dep x sp p m' n y sp' t : wanted x sp -> deliver sp (Ok (p, m')) -> new_node x p m' false = Ok n ->
        sget y (n_reqs n) = Some (sp', t) -> wanted y sp'.

    (** whatever answers one request for a name satisfies every request for that name *)
    Hypothesis compat : forall x sp sp' p m', wanted x sp -> wanted x sp' -> deliver sp (Ok (p, m')) ->
      sat (pk_resolved p) sp' = Ok true.

    Definition flatJ (k : nat) (g : graph) (q : list nat) (P : list dep) : Prop :=
      (forall i, 0 < i < size g -> parent_of g i = Some 0 /\
          exists sp p m' n, wanted (name_of g i) sp /\ deliver sp (Ok (p, m')) /\ pkg_of g i = Some p
             /\ new_node (name_of g i) p m' false = Ok n /\ forall y, req_of g i y = sget y (n_reqs n))
      /\ (forall y, req_of g 0 y = sget y (n_reqs root))
      /\ (forall d, In d P -> wanted (d_name d) (d_spec d)).

    Lemma flat_none k g q P d : GInv g q (d :: P) -> flatJ k g q (d :: P) -> satisfy_dependency g d = Ok None ->
      resolve_dep g (d_node d) (d_name d) = None.
    Proof.
      intros I (H1 & H2 & H3) Hs. pose proof (ginv_parlt _ _ _ _ _ _ I) as Hp.
      destruct (gi_P _ _ _ _ _ _ I d (or_introl eq_refl)) as (Hdn & _).
      destruct (resolve_dep g (d_node d) (d_name d)) as [c|] eqn:Er; [exfalso|auto].
      assert (Hl : lookup g (d_node d) (d_name d) c) by (apply lookup_resolve; auto).
      destruct (lookup_spec _ _ _ _ Hl) as (a & _ & Hc & _).
      destruct (gi_child _ _ _ _ _ _ I _ _ _ Hc) as (Hcs & Hcp & Hcn).
      assert (c <> 0). { intros ->. rewrite (proj2 (gi_root _ _ _ _ _ _ I)) in Hcp. discriminate. }
      destruct (H1 c) as (_ & sp & p & m' & n & Hw & Hd & Hpk & _); [lia|].
      unfold pkg_of in Hpk. destruct (getn g c) as [nc|] eqn:En; [|discriminate]. injection Hpk as Hpk.
      pose proof (satisfy_none _ _ _ _ Hs _ _ Er En) as Hf.
      rewrite Hcn in Hw. pose proof (compat _ _ _ _ _ Hw (H3 d (or_introl eq_refl)) Hd) as Ht. rewrite Hpk in Hf. congruence.
    Qed.

    Lemma flat_place k g q P d p m' tp g' ci : GInv g q (d :: P) -> flatJ k g q (d :: P) -> satisfy_dependency g d = Ok None ->
      provided g d p m' tp -> place_child g d p m' tp = Ok (g', ci) ->
      exists cn, new_node (d_name d) p m' false = Ok cn /\ upd_place g d cn 0 g' /\ ci = size g /\ child_of g 0 (d_name d) = None.
    Proof.
      intros I HJ Hs Hpr Hpl. pose proof (flat_none _ _ _ _ _ I HJ Hs) as Hno. destruct HJ as (H1 & H2 & H3).
      pose proof (ginv_parlt _ _ _ _ _ _ I) as Hp.
      destruct (gi_P _ _ _ _ _ _ I d (or_introl eq_refl)) as (Hdn & _).
      destruct Hpr as [[-> Hdel]|(lf & ln & E & _)]; [|discriminate].
      destruct (place_child_inv _ _ _ _ _ _ _ _ _ _ Hdn Hp Hpl) as (cn0 & tgt0 & Hcn0 & -> & U0 & _).
      unfold ResolverModel.place_child in Hpl. rewrite Hcn0 in Hpl. cbn in Hpl.
      destruct (new_node_ok _ _ _ _ _ _ Hcn0) as (Hnm & Hpk & Hpa & Hch & Hde & Hnd).
      change (mkGraph (g_nodes g ++ [cn0]) (g_edges g ++ [mkEdge (d_node d) (length (g_nodes g)) (d_spec d) (d_type d)]))
        with (pre_place g d cn0) in Hpl.
      set (g1 := pre_place g d cn0) in *.
      assert (Hp1 : parlt g1) by (intros i p0; unfold g1; rewrite pre_parent by auto; apply Hp).
      assert (Hz : size g > 0) by apply (gi_root _ _ _ _ _ _ I).
      assert (Hr0 : parent_of g 0 = None) by apply (gi_root _ _ _ _ _ _ I).
      assert (Hno1 : forall j, under g (d_node d) j -> resolve_dep g1 j (d_name d) = None).
      { intros j Hu. destruct (resolve_dep g1 j (d_name d)) as [c|] eqn:Er; [exfalso|auto].
        assert (Hj : j < size g) by (pose proof (under_lt _ Hp _ _ Hu); lia).
        assert (Hl : lookup g1 j (d_name d) c) by (apply lookup_resolve; [auto | unfold g1; rewrite pre_size; lia | auto]).
        assert (Hl' : lookup g j (d_name d) c).
        { eapply (lookup_ext g1 g); [intros; unfold g1; symmetry; apply pre_parent; auto | intros; unfold g1; symmetry; apply pre_child; auto | exact Hl]. }
        destruct (lookup_spec _ _ _ _ Hl') as (a & Hua & Hca & _).
        assert (Hex : exists c', resolve_dep g (d_node d) (d_name d) = Some c').
        { assert (Hua' : under g (d_node d) a) by (eapply under_trans; eauto).
          clear -Hp Hdn Hca Hua'. revert Hdn. induction Hua' as [i|i p0 a0 Hpi Hu IH]; intros Hi.
          - exists c. apply lookup_resolve; auto. now constructor.
          - assert (p0 < i) by now apply Hp. destruct IH as [c' Hc']; [auto | lia|].
            destruct (child_of g i (d_name d)) as [c2|] eqn:E2.
            + exists c2. apply lookup_resolve; auto. now constructor.
            + exists c'. apply lookup_resolve; auto. eapply lk_up; eauto. apply lookup_resolve; auto. lia. }
        destruct Hex. congruence. }
      assert (Hreq : forall j, under g (d_node d) j -> conflict_req rsat canon g1 j (d_name d) p = Ok false).
      { intros j Hu. assert (Hj : j < size g) by (pose proof (under_lt _ Hp _ _ Hu); lia).
        unfold ResolverModel.conflict_req. unfold g1. rewrite pre_getn. destruct (Nat.eqb_spec j (size g)); [lia|].
        destruct (proj1 (getn_lt g j) Hj) as [nj Hnj]. rewrite Hnj.
        destruct (sget (d_name d) (n_reqs nj)) as [[req t]|] eqn:Eq; [|auto].
        assert (Hrq : req_of g j (d_name d) = Some (req, t)) by (unfold req_of; now rewrite Hnj).
        assert (Hw : wanted (d_name d) req).
        { destruct (Nat.eq_dec j 0) as [->|Hne].
          - rewrite H2 in Hrq. eapply wanted_root; eauto.
          - destruct (H1 j) as (_ & sp & p1 & m1 & n1 & A & B & C & D & E); [lia|].
            rewrite E in Hrq. eapply wanted_dep; eauto. }
        rewrite (compat _ _ _ _ _ (H3 d (or_introl eq_refl)) Hw Hdel). reflexivity. }
      assert (Hex : forall j, under g (d_node d) j -> conflict_existing rsat canon g1 j (d_name d) (d_spec d) = Ok false).
      { intros j Hu. unfold ResolverModel.conflict_existing. now rewrite Hno1. }
      assert (Hpar1 : parents g1 0 = [0]).
      { rewrite parents_unfold; [|auto | unfold g1; rewrite pre_size; lia]. unfold g1. rewrite pre_parent, Hr0 by auto. reflexivity. }
      assert (Hcl : climb rsat canon g1 (d_name d) (d_spec d) p None (d_node d) (parents g1 (d_node d)) = Ok 0).
      { assert (Hu0 : under g (d_node d) 0).
        { destruct (Nat.eq_dec (d_node d) 0) as [->|Hne]; [constructor|]. eapply under_step; [apply H1; lia | constructor]. }
        destruct (Nat.eq_dec (d_node d) 0) as [E0|Hne].
        - rewrite E0, Hpar1. cbn. rewrite Hex by auto. cbn. rewrite Hreq by auto. cbn. auto.
        - rewrite parents_unfold by (auto; unfold g1; rewrite pre_size; lia).
          assert (Hpd : parent_of g1 (d_node d) = Some 0) by (unfold g1; rewrite pre_parent by auto; apply H1; lia).
          rewrite Hpd, Hpar1. cbn. rewrite Hex by constructor. cbn. rewrite Hreq by constructor. cbn.
          rewrite Hex by auto. cbn. rewrite Hreq by auto. cbn. auto. }
      rewrite Hcl in Hpl. cbn in Hpl. injection Hpl as <-.
      exists cn0. split; [auto|]. split; [apply place_upd; auto|]. split; [auto|].
      destruct (child_of g 0 (d_name d)) as [c|] eqn:Ec; [exfalso|auto].
      assert (Hex0 : resolve_dep g1 0 (d_name d) = Some c).
      { apply lookup_resolve; [auto | unfold g1; rewrite pre_size; lia|]. constructor. unfold g1. rewrite pre_child; auto. }
      rewrite Hno1 in Hex0; [discriminate|].
      destruct (Nat.eq_dec (d_node d) 0) as [->|Hne]; [constructor|]. eapply under_step; [apply H1; lia | constructor].
    Qed.

    Lemma flat_sat k g q P d g' x : GInv g q (d :: P) -> flatJ k g q (d :: P) ->
      satisfy_dependency g d = Ok (Some (g', x)) -> flatJ k g' q P /\ (forall y, child_of g' 0 y = child_of g 0 y).
    Proof.
      intros I (H1 & H2 & H3) Hsat.
      destruct (satisfy_some _ _ _ _ _ _ Hsat) as (nx & Hr & Hx & Hss & ->).
      destruct (gi_P _ _ _ _ _ _ I d (or_introl eq_refl)) as (Hdn & _).
      set (e0 := mkEdge (d_node d) x (d_spec d) (d_type d)).
      destruct (link_dep_upd (mkGraph (g_nodes g) (g_edges g ++ [e0])) (d_node d) (d_name d) (length (g_edges g)))
        as [(Usz & Upar & Uch & Unm & Upk & Urq & Udp & Unr) Hed]; [exact Hdn|].
      split; [|intros y; apply Uch]. split; [|split].
      - intros i Hi. rewrite Usz in Hi. destruct (H1 i Hi) as (A & sp & p & m' & n & B & C & D & E & F).
        split; [rewrite Upar; auto|]. exists sp, p, m', n. rewrite Unm, Upk. repeat split; auto. intros y. rewrite Urq. apply F.
      - intros y. rewrite Urq. apply H2.
      - intros d' Hd'. apply H3. now right.
    Qed.
    Lemma flat_placeJ k g q P d p m' tp g' ci : GInv g q (d :: P) -> flatJ k g q (d :: P) -> satisfy_dependency g d = Ok None ->
      provided g d p m' tp -> place_child g d p m' tp = Ok (g', ci) -> flatJ k g' (q ++ [ci]) P.
    Proof.
      intros I HJ Hs Hpr Hpl. destruct (flat_place _ _ _ _ _ _ _ _ _ _ I HJ Hs Hpr Hpl) as (cn & Hcn & U & -> & _).
      destruct HJ as (H1 & H2 & H3). destruct Hpr as [[-> Hdel]|(lf & ln & E & _)]; [|discriminate].
      destruct U as (Usz & Hed & Upar & Uch & Unm & Upk & Urq & Udp & Unr).
      destruct (new_node_ok _ _ _ _ _ _ Hcn) as (Hnm & Hpk & Hpa & Hch & Hde & Hnd).
      assert (Hz : size g > 0) by apply (gi_root _ _ _ _ _ _ I).
      split; [|split].
      - intros i Hi. rewrite Usz in Hi. rewrite Upar, Unm, Upk.
        destruct (Nat.eqb_spec i (size g)) as [->|Hne].
        + split; [auto|]. exists (d_spec d), p, m', cn. rewrite Hnm, Hpk. repeat split; auto.
          * apply H3. now left.
          * intros y. rewrite Urq, Nat.eqb_refl. auto.
        + destruct (H1 i ltac:(lia)) as (A & sp & p1 & m1 & n & B & C & D & E & F).
          split; [auto|]. exists sp, p1, m1, n. repeat split; auto. intros y. rewrite Urq.
          destruct (Nat.eqb_spec i (size g)); [lia | auto].
      - intros y. rewrite Urq. destruct (Nat.eqb_spec 0 (size g)); [lia | auto].
      - intros d' Hd'. apply H3. now right.
    Qed.
    Lemma flat_pop k g i q P n : GInv g (i :: q) P -> flatJ k g (i :: q) P -> getn g i = Some n -> flatJ k g q (deps_of i n ++ P).
    Proof.
      intros I (H1 & H2 & H3) Hn. split; [auto|]. split; [auto|].
      intros d Hd. apply in_app_iff in Hd. destruct Hd as [Hd|Hd]; [|auto].
      unfold deps_of in Hd. apply in_map_iff in Hd. destruct Hd as ([x [sp t]] & <- & Hin). cbn.
      assert (Hrq : req_of g i x = Some (sp, t)).
      { unfold req_of. rewrite Hn. apply In_aget; [apply seqb_spec | eapply gi_reqs; eauto | auto]. }
      destruct (Nat.eq_dec i 0) as [->|Hne].
      - rewrite H2 in Hrq. eapply wanted_root; eauto.
      - assert (i < size g) by (apply getn_lt; eauto).
        destruct (H1 i) as (_ & sp1 & p1 & m1 & n1 & A & B & C & D & E); [lia|].
        rewrite E in Hrq. eapply wanted_dep; eauto.
    Qed.
    Lemma flat_init k : flatJ k (init_graph root) [0] [].
    Proof.
      split; [|split; [intros y; reflexivity | intros d []]]. intros i Hi. unfold size in Hi; cbn in Hi. lia.
    Qed.

    Lemma flat_reach s : reach root s -> flatJ 0 (s_g s) (s_q s) (waiting s).
    Proof.
      intros Hs.
      destruct (reach_J rsat canon parse_dep lnode lnode_path lnode_manifest to_package deliver None 0 flatJ)
        with (root := root) (pkg := pkg) (m := m) (name := name) (k := 0) (s := s) as (k' & _ & H); auto.
      - intros k g q q' P P' Hq HP (H1 & H2 & H3). split; [auto|]. split; [auto|].
        intros d Hd. apply H3. eapply Permutation_in; [symmetry|]; eauto.
      - intros k g q P d g' x I HJ Hsat. exists k. split; [lia|]. eapply flat_sat; eauto.
      - intros k g q P d p m' tp g' ci I HJ Hsat Hpr Hpl. exists k. split; [lia|]. eapply flat_placeJ; eauto.
      - intros k g i q P n I HJ Hn. exists k. split; [lia|]. eapply flat_pop; eauto.
      - apply flat_init.
    Qed.

    (** *** termination *)
    Section Finite.
      Variable U : list string.
      Variable B : nat.
      Hypothesis finite : forall x sp, wanted x sp -> In x U.
      Hypothesis bounded : forall x sp p m', wanted x sp -> deliver sp (Ok (p, m')) -> length (m_deps m' ++ m_opt m') <= B.

      Definition room (g : graph) : nat := length (filter (fun x => negb (is_some (child_of g 0 x))) U).
      Definition fpot (g : graph) (q : list nat) (P : list dep) : nat :=
        (3 + B) * room g + sumf (fun i => 1 + length (reqs_at g i)) q + length P.

      Lemma room_ext g g' : (forall y, child_of g' 0 y = child_of g 0 y) -> room g' = room g.
      Proof. intros H. unfold room. f_equal. apply filter_ext. intros x. now rewrite H. Qed.
      Lemma filter_lt A (f h : A -> bool) x l : In x l -> f x = true -> h x = false -> (forall y, h y = true -> f y = true) ->
        length (filter h l) < length (filter f l).
      Proof.
        intros Hin Hf Hh Himp. assert (Hle : forall l', length (filter h l') <= length (filter f l')).
        { induction l' as [|a t IH]; cbn; [lia|]. destruct (h a) eqn:E; [rewrite (Himp _ E); cbn; lia|]. destruct (f a); cbn; lia. }
        induction l as [|a t IH]; [destruct Hin|]. cbn. destruct Hin as [->|Hin].
        - rewrite Hf, Hh. cbn. specialize (Hle t). lia.
        - specialize (IH Hin). destruct (h a) eqn:E; [rewrite (Himp _ E); cbn; lia|]. destruct (f a); cbn; lia.
      Qed.

      Lemma flat_steps_bound n s : steps root n s -> n <= fpot (init_graph root) [0] [].
      Proof.
        intros Hs.
        destruct (steps_J rsat canon parse_dep lnode lnode_path lnode_manifest to_package deliver None 1
                  (fun k g q P => flatJ k g q P /\ fpot g q P <= k))
          with (root := root) (pkg := pkg) (m := m) (name := name) (k := fpot (init_graph root) [0] []) (n := n) (s := s)
          as (k' & Hk & _); auto; try lia.
        - intros k g q q' P P' Hq HP ((H1 & H2 & H3) & H). split.
          + split; [auto|]. split; [auto|]. intros d Hd. apply H3. eapply Permutation_in; [symmetry|]; eauto.
          + unfold fpot in *. rewrite <- (sumf_perm _ _ _ _ Hq), <- (Permutation_length HP). auto.
        - intros k g q P d g' x I [HJ H] Hsat. exists (fpot g' q P).
          destruct (flat_sat k _ _ _ _ _ _ I HJ Hsat) as [HJ' Hch]. split.
          + unfold fpot in *. rewrite (room_ext _ _ Hch).
            rewrite (sumf_ext _ (fun i => 1 + length (reqs_at g' i)) (fun i => 1 + length (reqs_at g i))); [cbn in *; lia|].
            intros j _. now rewrite (reqs_sat _ _ _ _ _ _ I Hsat).
          + split; [exact HJ' | lia].
        - intros k g q P d p m' tp g' ci I [HJ H] Hsat Hpr Hpl. exists (fpot g' (q ++ [ci]) P).
          pose proof (flat_placeJ _ _ _ _ _ _ _ _ _ _ I HJ Hsat Hpr Hpl) as HJ'. split; [|split; [exact HJ' | lia]].
          destruct (flat_place _ _ _ _ _ _ _ _ _ _ I HJ Hsat Hpr Hpl) as (cn & Hcn & Up & -> & Hfree).
          destruct (reqs_place _ _ _ _ _ _ _ _ _ I Hpl) as (cn' & Hcn' & _ & Hreq).
          rewrite Hcn in Hcn'. injection Hcn' as <-.
          destruct Hpr as [[-> Hdel]|(lf & ln & E & _)]; [|discriminate].
          assert (Hw : wanted (d_name d) (d_spec d)) by (apply HJ; now left).
          destruct Up as (Usz & Hed & Upar & Uch & _).
          assert (Hroom : room g' < room g).
          { unfold room. apply filter_lt with (x := d_name d).
            - eapply finite; eauto.
            - now rewrite Hfree.
            - rewrite Uch, Nat.eqb_refl, String.eqb_refl. reflexivity.
            - intros y. rewrite Uch. cbn. destruct (String.eqb y (d_name d)); [discriminate | auto]. }
          destruct (new_node_reqs _ _ _ _ _ Hcn) as [Hlen _]. pose proof (bounded _ _ _ _ Hw Hdel).
          unfold fpot in *. rewrite sumf_app. cbn [sumf] in *. rewrite Hreq, Nat.eqb_refl.
          rewrite (sumf_ext _ (fun i => 1 + length (reqs_at g' i)) (fun i => 1 + length (reqs_at g i)) q).
          + cbn [length] in H. nia.
          + intros j Hj. rewrite Hreq. destruct (Nat.eqb_spec j (size g)) as [->|]; [|auto].
            destruct (gi_q _ _ _ _ _ _ I) as [_ Hq]. destruct (Hq _ Hj). lia.
        - intros k g i q P nd I [HJ H] Hn. exists (fpot g q (deps_of i nd ++ P)). split; [|split; [eapply flat_pop; eauto | lia]].
          unfold fpot in *. cbn [sumf] in H. rewrite app_length. unfold deps_of. rewrite map_length.
          assert (Er : reqs_at g i = n_reqs nd) by (unfold reqs_at; now rewrite Hn). rewrite Er in H. lia.
        - split; [apply flat_init | lia].
      Qed.
    End Finite.

    (** *** the result does not depend on the schedule *)
    Section Determined.
      (** the registry's answers to requests for one name name the same package, with the same manifest *)
      Hypothesis same : forall x sp sp' p p' m1 m1', wanted x sp -> wanted x sp' ->
        deliver sp (Ok (p, m1)) -> deliver sp' (Ok (p', m1')) -> pk_resolved p = pk_resolved p' /\ m1 = m1'.

      Lemma flat_complete s : reach root s -> finished s = true ->
        forall x sp, wanted x sp -> exists c, child_of (s_g s) 0 x = Some c.
      Proof.
        intros Hs Hf x sp Hw.
        pose proof (reach_inv _ _ _ _ _ _ _ _ _ _ _ _ _ _ Hroot Hs) as SI.
        destruct (finished_nil _ _ _ _ SI Hf) as [Hq Hwt]. pose proof SI as [I _ _ _ _].
        destruct (flat_reach s Hs) as (H1 & H2 & H3).
        assert (Hstep : forall i y sp' t, i < size (s_g s) -> req_of (s_g s) i y = Some (sp', t) -> exists c, child_of (s_g s) 0 y = Some c).
        { intros i y sp' t Hi Hr. destruct (gi_all _ _ _ _ _ _ I i y (sp', t) Hi) as [Hd|(d & Hd & _)]; auto.
          - rewrite Hq. auto.
          - destruct (dep_of (s_g s) i y) as [ei|] eqn:Ed; [|congruence].
            destruct (gi_dep _ _ _ _ _ _ I _ _ _ Ed) as (e & He & Hfrom & Hreq & Hnm & Hnz & _).
            assert (Hto : e_to e < size (s_g s)). { apply nth_error_In in He. apply (gi_edge _ _ _ _ _ _ I _ He). }
            destruct (gi_par _ _ _ _ _ _ I (e_to e)) as (p & Hp & _ & Hc); [lia|].
            destruct (H1 (e_to e)) as [Hp0 _]; [lia|]. rewrite Hp0 in Hp. injection Hp as <-. rewrite Hnm in Hc. eauto.
          - rewrite Hwt in Hd. destruct Hd. }
        induction Hw as [x sp t Hr|x sp p m' n y sp' t Hw IH Hdel Hn Hy].
        - eapply (Hstep 0); [apply (gi_root _ _ _ _ _ _ I)|]. rewrite H2. eauto.
        - destruct IH as [c Hc]. destruct (gi_child _ _ _ _ _ _ I _ _ _ Hc) as (Hcs & Hcp & Hcn).
          assert (c <> 0). { intros ->. rewrite (proj2 (gi_root _ _ _ _ _ _ I)) in Hcp. discriminate. }
          destruct (H1 c) as (_ & sp2 & p2 & m2 & n2 & A & B & C & D & E); [lia|]. rewrite Hcn in *.
          destruct (same _ _ _ _ _ _ _ Hw A Hdel B) as [_ <-].
          destruct (new_node_reqs_indep _ _ x _ p2 _ _ _ Hn) as (n3 & Hn3 & Er3). rewrite D in Hn3. injection Hn3 as <-.
          eapply (Hstep c); [auto|]. rewrite E, Er3. eauto.
      Qed.

      (** which resolution sits at which path *)
      Definition tree_res (g : graph) (path : list string) (r : resolution) : Prop :=
        exists p, tree_has g path p /\ pk_resolved p = r.

      Lemma flat_paths s : reach root s -> forall i path, installed_at (s_g s) i path ->
        (i = 0 /\ path = []) \/ (exists x, path = [x] /\ child_of (s_g s) 0 x = Some i).
      Proof.
        intros Hs i path H. pose proof (reach_inv _ _ _ _ _ _ _ _ _ _ _ _ _ _ Hroot Hs) as [I _ _ _ _].
        destruct (flat_reach s Hs) as (H1 & _). destruct H as [|p path x c H Hc]; [auto|].
        right. destruct (gi_child _ _ _ _ _ _ I _ _ _ Hc) as (Hcs & Hcp & Hcn).
        assert (c <> 0). { intros ->. rewrite (proj2 (gi_root _ _ _ _ _ _ I)) in Hcp. discriminate. }
        destruct (H1 c) as [Hp0 _]; [lia|]. rewrite Hp0 in Hcp. injection Hcp as <-.
        destruct (installed_path _ _ _ _ _ _ I _ _ H) as [_ ->].
        rewrite node_path_root; [|eapply ginv_parlt; eauto | apply (gi_root _ _ _ _ _ _ I) | apply (gi_root _ _ _ _ _ _ I)].
        exists x. auto.
      Qed.

      Lemma pkg_root s : reach root s -> pkg_of (s_g s) 0 = Some (n_pkg root).
      Proof.
        intros Hs. induction Hs as [|s a s' Hs IH Hl He]; [reflexivity|].
        pose proof (reach_inv _ _ _ _ _ _ _ _ _ _ _ _ _ _ Hroot Hs) as SI.
        pose proof (extends_exec _ _ _ _ _ _ _ _ _ _ _ _ SI Hl He) as (_ & _ & Hx). apply Hx. auto.
      Qed.

      Lemma flat_same_tree s s' : reach root s -> reach root s' -> finished s = true -> finished s' = true ->
        forall path r, tree_res (s_g s) path r -> tree_res (s_g s') path r.
      Proof.
        intros Hs Hs' Hf Hf' path r (p & (i & n & Hi & Hn & Hp) & Hres).
        destruct (flat_paths s Hs i path Hi) as [[-> ->]|(x & -> & Hc)].
        - pose proof (pkg_root s Hs) as Hp0. pose proof (pkg_root s' Hs') as Hp0'. unfold pkg_of in *.
          rewrite Hn in Hp0. destruct (getn (s_g s') 0) as [n'|] eqn:En'; [|discriminate].
          exists p. split; [|auto]. exists 0, n'. repeat split; [constructor | auto | congruence].
        - pose proof (reach_inv _ _ _ _ _ _ _ _ _ _ _ _ _ _ Hroot Hs) as [I _ _ _ _].
          pose proof (reach_inv _ _ _ _ _ _ _ _ _ _ _ _ _ _ Hroot Hs') as [I' _ _ _ _].
          destruct (flat_reach s Hs) as (H1 & _). destruct (flat_reach s' Hs') as (H1' & _).
          destruct (gi_child _ _ _ _ _ _ I _ _ _ Hc) as (Hcs & Hcp & Hcn).
          assert (i <> 0). { intros ->. rewrite (proj2 (gi_root _ _ _ _ _ _ I)) in Hcp. discriminate. }
          destruct (H1 i) as (_ & sp & p1 & m1 & n1 & A & B & C & _); [lia|]. rewrite Hcn in *.
          destruct (flat_complete s' Hs' Hf' _ _ A) as [c' Hc'].
          destruct (gi_child _ _ _ _ _ _ I' _ _ _ Hc') as (Hcs' & Hcp' & Hcn').
          assert (c' <> 0). { intros ->. rewrite (proj2 (gi_root _ _ _ _ _ _ I')) in Hcp'. discriminate. }
          destruct (H1' c') as (_ & sp' & p1' & m1' & n1' & A' & B' & C' & _); [lia|]. rewrite Hcn' in *.
          destruct (same _ _ _ _ _ _ _ A A' B B') as [Er _].
          unfold pkg_of in C, C'. rewrite Hn in C. injection C as C.
          destruct (getn (s_g s') c') as [nc|] eqn:Enc; [|discriminate]. injection C' as C'.
          exists p1'. split; [|congruence]. exists c', nc. repeat split; auto.
          change [x] with ([] ++ [x]). econstructor; [constructor | auto].
      Qed.
    End Determined.
  End Flat.
End Term.
