(** * Termination when only names on no dependency cycle have conflicting versions.
    Every name occurs at most once on the way from the root to a package: a second copy of [x] inside a first one means that [x]
    leads back to [x], and then the first copy would have been used. So the tree has a bounded depth and width. *)
From Verif Require Import Base Types ResolverModel ResolverProofs ResolverRun ResolverSpec ResolverThms ResolverSteps ResolverTerm ResolverFacts.
From Coq Require Import Permutation Relation_Operators.
Open Scope list_scope.

Section Cycles.
  Variable rsat : range -> version -> bool.
  Variable canon : string -> option string.
  Variable parse_dep : string -> string -> res err pspec.
  Variable lnode : Type.
  Variable lnode_path : lnode -> list string.
  Variable lnode_manifest : lnode -> manifest.
  Variable to_package : lnode -> res err (option package).
  Variable deliver : pspec -> outcome -> Prop.
  Variable lock : option (lockpkgs lnode).
  Variables (root : node) (pkg : package) (m : manifest) (name : string).
  Notation sat := (satisfies rsat canon).
  Notation GInv := (GInv rsat canon deliver).
  Notation new_node := (new_node parse_dep).
  Notation satisfy_dependency := (satisfy_dependency rsat canon).
  Notation place_child := (place_child rsat canon parse_dep).
  Notation provided := (provided rsat canon lnode lnode_path lnode_manifest to_package deliver lock).
  Notation steps := (steps rsat canon parse_dep lnode lnode_path lnode_manifest to_package deliver lock).
  Hypothesis Hroot : new_node name pkg m true = Ok root.

  (** a request for the name [x] with spec [sp] may be answered with package [p], whose manifest is [m']: by the registry, or by a
      lockfile entry for [x] that satisfies the request *)
  Definition answers (x : string) (sp : pspec) (p : package) (m' : manifest) : Prop :=
    deliver sp (Ok (p, m'))
    \/ exists lf path ln, lock = Some lf /\ aget lpath_eqb (path ++ [x]) lf = Some ln /\ to_package ln = Ok (Some p)
         /\ sat (pk_resolved p) sp = Ok true /\ m' = lnode_manifest ln.
  (** package [p] with manifest [m'], installed under the name [x], declares a dependency: name [y], spec [sp] *)
  Definition needs (x : string) (p : package) (m' : manifest) (y : string) (sp : pspec) : Prop :=
    exists n t, new_node x p m' false = Ok n /\ sget y (n_reqs n) = Some (sp, t).
  (** the requests that can come up *)
  Inductive asked : string -> pspec -> Prop :=
  | asked_root x sp t : sget x (n_reqs root) = Some (sp, t) -> asked x sp
  | asked_dep x sp p m' y sp' : asked x sp -> answers x sp p m' -> needs x p m' y sp' -> asked y sp'.
  (** some version of [x] that can be installed declares a dependency on [y]; and several such steps *)
  Definition leads (x y : string) : Prop := exists sp p m' sp', asked x sp /\ answers x sp p m' /\ needs x p m' y sp'.
  Definition leads_to : string -> string -> Prop := clos_trans string leads.

  Hypothesis compat : forall x sp sp' p m', leads_to x x -> asked x sp -> asked x sp' -> answers x sp p m' -> sat (pk_resolved p) sp' = Ok true.

  Definition cycJ (g : graph) (P : list dep) : Prop :=
    (forall i, 0 < i < size g -> exists sp p m' n, asked (name_of g i) sp /\ answers (name_of g i) sp p m' /\ pkg_of g i = Some p
        /\ new_node (name_of g i) p m' false = Ok n /\ forall y, req_of g i y = sget y (n_reqs n))
    /\ (forall y, req_of g 0 y = sget y (n_reqs root))
    /\ (forall d, In d P -> asked (d_name d) (d_spec d))
    /\ (forall i a, 0 < a -> i <> a -> i < size g -> under g i a -> leads_to (name_of g a) (name_of g i))
    /\ (forall i a, 0 < a -> i < size g -> under g i a -> name_of g i = name_of g a -> i = a).

  Lemma cyc_req g P i y sp t : cycJ g P -> i < size g -> req_of g i y = Some (sp, t) ->
    asked y sp /\ (i <> 0 -> leads (name_of g i) y).
  Proof.
    intros (H1 & H2 & _) Hi Hr. destruct (Nat.eq_dec i 0) as [->|Hne].
    - rewrite H2 in Hr. split; [eapply asked_root; eauto|congruence].
    - destruct (H1 i ltac:(lia)) as (sp0 & p & m' & n & Ha & Hw & Hp & Hn & Hq). rewrite Hq in Hr.
      assert (Hnd : needs (name_of g i) p m' y sp) by (exists n, t; auto). split; [eapply asked_dep; eauto|].
      intros _. exists sp0, p, m', sp. auto.
  Qed.

  Lemma cyc_sat g q P d g' x : GInv g q (d :: P) -> cycJ g (d :: P) -> satisfy_dependency g d = Ok (Some (g', x)) ->
    cycJ g' P /\ size g' = size g.
  Proof.
    intros I (H1 & H2 & H3 & H4 & H5) Hsat.
    destruct (satisfy_some _ _ _ _ _ _ Hsat) as (nx & Hr & Hx & Hss & ->).
    destruct (gi_P _ _ _ _ _ _ I d (or_introl eq_refl)) as (Hdn & _).
    set (e0 := mkEdge (d_node d) x (d_spec d) (d_type d)).
    destruct (link_dep_upd (mkGraph (g_nodes g) (g_edges g ++ [e0])) (d_node d) (d_name d) (length (g_edges g)))
      as [(Usz & Upar & Uch & Unm & Upk & Urq & Udp & Unr) Hed]; [exact Hdn|].
    assert (Hu : forall i a, under (link_dep (mkGraph (g_nodes g) (g_edges g ++ [e0])) (d_node d) (d_name d) (length (g_edges g))) i a -> under g i a).
    { intros i a. apply under_ext. intros j. rewrite Upar. reflexivity. }
    split; [|exact Usz]. split; [|split; [|split; [|split]]].
    - intros i Hi. rewrite Usz in Hi. destruct (H1 i Hi) as (sp & p & m' & n & B & C & D & E & F).
      exists sp, p, m', n. rewrite Unm, Upk. repeat split; auto. intros y. rewrite Urq. apply F.
    - intros y. rewrite Urq. apply H2.
    - intros d' Hd'. apply H3. now right.
    - intros i a Ha Hne Hi Hia. rewrite !Unm. rewrite Usz in Hi. apply H4; auto.
    - intros i a Ha Hi Hia. rewrite !Unm. rewrite Usz in Hi. intros E. apply H5; auto.
  Qed.

  Lemma provided_answers g d p m' tp : provided g d p m' tp -> answers (d_name d) (d_spec d) p m'.
  Proof.
    intros [[_ H]|(lf & ln & E & Hl & -> & _)]; [now left|]. right.
    destruct (lockfile_entry _ _ _ _ _ _ _ _ _ _ _ Hl) as (Hs & pre & suf & _ & Hg & Ht & _). exists lf, pre, ln. auto.
  Qed.

  Lemma cyc_place g q P d p m' tp g' ci : GInv g q (d :: P) -> cycJ g (d :: P) -> satisfy_dependency g d = Ok None ->
    provided g d p m' tp -> place_child g d p m' tp = Ok (g', ci) -> cycJ g' P /\ ci = size g /\ size g' = S (size g).
  Proof.
    intros I HJ Hs Hpr Hpl. pose proof HJ as (H1 & H2 & H3 & H4 & H5).
    pose proof (ginv_parlt _ _ _ _ _ _ I) as Hp.
    destruct (gi_P _ _ _ _ _ _ I d (or_introl eq_refl)) as (Hdn & _ & _ & Hdr).
    destruct (place_child_inv _ _ _ _ _ _ _ _ _ _ Hdn Hp Hpl) as (cn & tgt & Hcn & -> & U & Htl & Hut & _).
    destruct U as (Usz & Hed & Upar & Uch & Unm & Upk & Urq & Udp & Unr).
    destruct (new_node_ok _ _ _ _ _ _ Hcn) as (Hnm & Hpk & Hpa & Hch & Hde & Hnd).
    assert (Hz : size g > 0) by apply (gi_root _ _ _ _ _ _ I).
    pose proof (provided_answers _ _ _ _ _ Hpr) as Han.
    assert (Hlead : forall a, 0 < a -> under g tgt a -> leads_to (name_of g a) (d_name d)).
    { intros a Ha Hu. assert (Hua : under g (d_node d) a) by (eapply under_trans; eauto).
      assert (Hd0 : d_node d <> 0) by (intros E; pose proof (under_lt _ Hp _ _ Hua); lia).
      destruct (cyc_req g (d :: P) _ _ _ _ HJ Hdn Hdr) as [_ Hl]. specialize (Hl Hd0).
      destruct (Nat.eq_dec (d_node d) a) as [<-|Hne]; [now apply t_step|].
      eapply t_trans; [apply H4; eauto|now apply t_step]. }
    assert (Hfresh : forall a, 0 < a -> under g tgt a -> name_of g a <> d_name d).
    { intros a Ha Hu E. assert (Hua : under g (d_node d) a) by (eapply under_trans; eauto).
      assert (Has : a < size g) by (pose proof (under_lt _ Hp _ _ Hu); lia).
      pose proof (Hlead a Ha Hu) as Hc. rewrite E in Hc.
      destruct (gi_par _ _ _ _ _ _ I a ltac:(lia)) as (pa & Hpp & _ & Hca). rewrite E in Hca.
      assert (Hup : under g (d_node d) pa) by (eapply under_trans; [exact Hua|]; eapply under_step; [exact Hpp|constructor]).
      assert (Hlk : exists r, lookup g (d_node d) (d_name d) r).
      { clear -Hup Hca. induction Hup as [i | i p1 a1 Hp Hu IH]; [exists a; now constructor|].
        destruct (child_of g i (d_name d)) eqn:E; [eexists; constructor; eauto|].
        destruct (IH Hca) as [r Hr]. exists r. eapply lk_up; eauto. }
      destruct Hlk as [r Hlk]. destruct (lookup_spec _ _ _ _ Hlk) as (b & _ & Hcb & _).
      destruct (gi_child _ _ _ _ _ _ I _ _ _ Hcb) as (Hrs & Hrp & Hrn).
      assert (r <> 0). { intros ->. rewrite (proj2 (gi_root _ _ _ _ _ _ I)) in Hrp. discriminate. }
      destruct (H1 r ltac:(lia)) as (sp & pr & mr & nn & Hask & Hw & Hpkr & _). rewrite Hrn in Hask, Hw.
      unfold pkg_of in Hpkr. destruct (getn g r) as [nr|] eqn:En; [|discriminate]. injection Hpkr as Hpkr.
      pose proof (satisfy_none _ _ _ _ Hs _ _ (proj2 (lookup_resolve g Hp _ Hdn _ _) Hlk) En) as Hf.
      rewrite Hpkr, (compat _ _ _ _ _ Hc Hask (H3 d (or_introl eq_refl)) Hw) in Hf. discriminate. }
    assert (Huold : forall i a, i < size g -> (under g' i a <-> under g i a)).
    { apply (under_new g g' (size g) tgt Hp eq_refl). intros j. rewrite Upar. reflexivity. }
    assert (Hunew : forall a, under g' (size g) a -> a = size g \/ under g tgt a).
    { intros a Hu. inversion Hu as [|? p1 ? Hpi Hu']; subst; [now left|]. right. rewrite Upar, Nat.eqb_refl in Hpi. injection Hpi as <-.
      apply Huold; auto. }
    assert (Hnmold : forall j, j <> size g -> name_of g' j = name_of g j).
    { intros j Hj. rewrite Unm. destruct (Nat.eqb_spec j (size g)); [lia|auto]. }
    assert (Hnmnew : name_of g' (size g) = d_name d) by (rewrite Unm, Nat.eqb_refl; auto).
    split; [|auto]. split; [|split; [|split; [|split]]].
    - intros i Hi. rewrite Usz in Hi. rewrite Unm, Upk.
      destruct (Nat.eqb_spec i (size g)) as [->|Hne].
      + exists (d_spec d), p, m', cn. rewrite Hnm, Hpk. repeat split; auto.
        * apply H3. now left.
        * intros y. rewrite Urq, Nat.eqb_refl. auto.
      + destruct (H1 i ltac:(lia)) as (sp & p1 & m1 & n & B & C & D & E & F).
        exists sp, p1, m1, n. repeat split; auto. intros y. rewrite Urq.
        destruct (Nat.eqb_spec i (size g)); [lia | auto].
    - intros y. rewrite Urq. destruct (Nat.eqb_spec 0 (size g)); [lia | auto].
    - intros d' Hd'. apply H3. now right.
    - intros i a Ha Hne Hi Hia. rewrite Usz in Hi. destruct (Nat.eq_dec i (size g)) as [->|Hi'].
      + destruct (Hunew a Hia) as [->|Hu]; [congruence|]. rewrite Hnmnew, Hnmold; [now apply Hlead|].
        pose proof (under_lt _ Hp _ _ Hu). lia.
      + apply Huold in Hia; [|lia]. pose proof (under_lt _ Hp _ _ Hia). rewrite !Hnmold by lia. apply H4; auto; lia.
    - intros i a Ha Hi Hia. rewrite Usz in Hi. destruct (Nat.eq_dec i (size g)) as [->|Hi'].
      + destruct (Hunew a Hia) as [->|Hu]; [auto|]. rewrite Hnmnew, Hnmold; [|pose proof (under_lt _ Hp _ _ Hu); lia].
        intros E. exfalso. eapply Hfresh; eauto.
      + apply Huold in Hia; [|lia]. pose proof (under_lt _ Hp _ _ Hia). rewrite !Hnmold by lia. apply H5; auto; lia.
  Qed.

  Lemma cyc_pop g i q P n : GInv g (i :: q) P -> cycJ g P -> getn g i = Some n -> cycJ g (deps_of i n ++ P).
  Proof.
    intros I HJ Hn. pose proof HJ as (H1 & H2 & H3 & H4 & H5). split; [auto|]. split; [auto|]. split; [|auto].
    intros d Hd. apply in_app_iff in Hd. destruct Hd as [Hd|Hd]; [|auto].
    unfold deps_of in Hd. apply in_map_iff in Hd. destruct Hd as ([x [sp t]] & <- & Hin). cbn.
    assert (Hrq : req_of g i x = Some (sp, t)).
    { unfold req_of. rewrite Hn. apply In_aget; [apply seqb_spec | eapply gi_reqs; eauto | auto]. }
    assert (i < size g) by (apply getn_lt; eauto). eapply (cyc_req g P); eauto.
  Qed.
  Lemma cyc_init : cycJ (init_graph root) [].
  Proof.
    repeat split.
    - intros i Hi. unfold size in Hi; cbn in Hi. lia.
    - intros d [].
    - intros i a Ha _ Hi Hu. unfold size in Hi; cbn in Hi. assert (i = 0) by lia. subst. inversion Hu as [|? p ? E]; subst; [lia|].
      unfold parent_of, getn in E. cbn in E. destruct (new_node_ok _ _ _ _ _ _ Hroot) as (_ & _ & Hpa & _). congruence.
    - intros i a Ha Hi Hu. unfold size in Hi; cbn in Hi. assert (i = 0) by lia. subst. inversion Hu as [|? p ? E]; subst; [lia|].
      unfold parent_of, getn in E. cbn in E. destruct (new_node_ok _ _ _ _ _ _ Hroot) as (_ & _ & Hpa & _). congruence.
  Qed.

  (** ** counting *)
  Section Finite.
    Variable U : list string.
    Hypothesis finite : forall x sp, asked x sp -> In x U.

    Fixpoint words (k : nat) : list (list string) :=
      match k with 0 => [[]] | S k' => [] :: flat_map (fun w => map (fun x => w ++ [x]) U) (words k') end.
    Lemma words_in : forall k w, length w <= k -> incl w U -> In w (words k).
    Proof.
      induction k as [|k IH]; intros w Hl Hi; [destruct w; [now left|cbn in Hl; lia]|].
      destruct w as [|x w _] using rev_ind; [now left|]. right. apply in_flat_map. exists w. split.
      - apply IH; [rewrite app_length in Hl; cbn in Hl; lia|]. intros y Hy. apply Hi, in_app_iff. now left.
      - apply in_map_iff. exists x. split; [auto|]. apply Hi, in_app_iff. right. now left.
    Qed.
    Lemma path_names g P q : GInv g q P -> cycJ g P -> forall i, i < size g ->
      NoDup (node_path g i) /\ forall x, In x (node_path g i) <-> exists a, 0 < a /\ under g i a /\ name_of g a = x.
    Proof.
      intros I (H1 & H2 & H3 & H4 & H5). pose proof (ginv_parlt _ _ _ _ _ _ I) as Hp. destruct (gi_root _ _ _ _ _ _ I) as [Hz Hr0].
      induction i as [i IH] using lt_wf_ind. intros Hi. destruct (Nat.eq_dec i 0) as [->|Hne].
      - rewrite node_path_root by auto. split; [constructor|]. intros x. split; [intros []|]. intros (a & Ha & Hu & _).
        pose proof (under_lt _ Hp _ _ Hu). lia.
      - destruct (gi_par _ _ _ _ _ _ I i ltac:(lia)) as (p & Hpp & Hlt & _). rewrite (node_path_step g Hp i p) by auto.
        destruct (IH p Hlt ltac:(lia)) as [Hnd Hin]. split.
        + apply (Permutation_NoDup (Permutation_cons_append _ _)). constructor; [|auto]. intros Hx. apply Hin in Hx.
          destruct Hx as (a & Ha & Hu & E). assert (i = a); [apply H5; auto; eapply under_step; eauto|].
          subst a. pose proof (under_lt _ Hp _ _ Hu). lia.
        + intros x. rewrite in_app_iff, Hin. split.
          * intros [(a & Ha & Hu & E)|[<-|[]]]; [exists a; repeat split; auto; eapply under_step; eauto|].
            exists i. repeat split; [lia|constructor].
          * intros (a & Ha & Hu & E). inversion Hu as [|? p1 ? Hpi Hu']; subst; [right; now left|].
            left. rewrite Hpp in Hpi. injection Hpi as <-. exists a. auto.
    Qed.
    Lemma nodup_map A B (f : A -> B) : forall l, (forall a b, In a l -> In b l -> f a = f b -> a = b) -> NoDup l -> NoDup (map f l).
    Proof.
      induction l as [|a l IH]; intros Hf Hn; [constructor|]. inversion Hn as [|? ? Ha Hl]; subst. cbn. constructor.
      - intros Hin. apply in_map_iff in Hin. destruct Hin as (b & E & Hb). apply Ha. rewrite (Hf a b); cbn; auto.
      - apply IH; auto. intros x y Hx Hy. apply Hf; cbn; auto.
    Qed.
    Lemma size_bound g P q : GInv g q P -> cycJ g P -> size g <= length (words (length U)).
    Proof.
      intros I HJ. rewrite <- (seq_length (size g) 0). rewrite <- (map_length (node_path g) (seq 0 (size g))).
      apply NoDup_incl_length.
      - apply nodup_map; [|apply seq_NoDup]. intros i j Hi Hj E. apply in_seq in Hi. apply in_seq in Hj.
        eapply installed_inj; [eapply installed_all; eauto; lia|]. rewrite E. eapply installed_all; eauto; lia.
      - intros w Hw. apply in_map_iff in Hw. destruct Hw as (i & <- & Hi). apply in_seq in Hi.
        destruct (path_names g P q I HJ i ltac:(lia)) as [Hnd Hin].
        assert (Hincl : incl (node_path g i) U).
        { intros x Hx. apply Hin in Hx. destruct Hx as (a & Ha & Hu & <-).
          pose proof (under_lt _ (ginv_parlt _ _ _ _ _ _ I) _ _ Hu).
          destruct HJ as (H1 & _). destruct (H1 a ltac:(lia)) as (sp & p & m' & n & B & _). eauto. }
        apply words_in; [|auto]. now apply NoDup_incl_length.
    Qed.
    Lemma reqs_bound g P q i : GInv g q P -> cycJ g P -> i < size g -> length (reqs_at g i) <= length U.
    Proof.
      intros I HJ Hi. unfold reqs_at. destruct (getn g i) as [n|] eqn:En; [|cbn; lia].
      rewrite <- (map_length fst). apply NoDup_incl_length; [eapply gi_reqs; eauto|].
      intros x Hx. apply in_map_iff in Hx. destruct Hx as ([y [sp t]] & <- & Hin). cbn.
      assert (Hrq : req_of g i y = Some (sp, t)).
      { unfold req_of. rewrite En. apply In_aget; [apply seqb_spec | eapply gi_reqs; eauto | auto]. }
      destruct (cyc_req g P _ _ _ _ HJ Hi Hrq). eauto.
    Qed.

    Definition cpot (g : graph) (q : list nat) (P : list dep) : nat :=
      (3 + length U) * (length (words (length U)) - size g) + sumf (fun i => 1 + length (reqs_at g i)) q + length P.
    Lemma cyc_bound n s : steps root n s -> n <= cpot (init_graph root) [0] [].
    Proof.
      intros Hs.
      destruct (steps_J rsat canon parse_dep lnode lnode_path lnode_manifest to_package deliver lock 1
                (fun k g q P => cycJ g P /\ cpot g q P <= k))
        with (root := root) (pkg := pkg) (m := m) (name := name) (k := cpot (init_graph root) [0] []) (n := n) (s := s)
        as (k' & Hk & _); auto; try lia.
      - intros k g q q' P P' Hq HP ((H1 & H2 & H3 & H4) & H). split.
        + split; [auto|]. split; [auto|]. split; [|auto]. intros d Hd. apply H3. eapply Permutation_in; [symmetry|]; eauto.
        + unfold cpot in *. rewrite <- (sumf_perm _ _ _ _ Hq), <- (Permutation_length HP). auto.
      - intros k g q P d g' x I [HJ H] Hsat. exists (cpot g' q P).
        destruct (cyc_sat _ _ _ _ _ _ I HJ Hsat) as [HJ' Hsz]. split; [|split; [exact HJ'|lia]].
        unfold cpot in *. rewrite Hsz.
        rewrite (sumf_ext _ (fun i => 1 + length (reqs_at g' i)) (fun i => 1 + length (reqs_at g i))); [cbn [length] in *; lia|].
        intros j _. now rewrite (reqs_sat rsat canon deliver _ _ _ _ _ _ I Hsat).
      - intros k g q P d p m' tp g' ci I [HJ H] Hsat Hpr Hpl. exists (cpot g' (q ++ [ci]) P).
        destruct (cyc_place _ _ _ _ _ _ _ _ _ I HJ Hsat Hpr Hpl) as (HJ' & -> & Hsz). split; [|split; [exact HJ'|lia]].
        destruct (reqs_place rsat canon parse_dep deliver _ _ _ _ _ _ _ _ _ I Hpl) as (cn' & Hcn' & _ & Hreq).
        assert (I' : GInv g' (q ++ [size g]) P).
        { eapply GInv_place; eauto. destruct Hpr as [[_ Hdel]|(lf & ln & _ & Hl & _)]; [right; eauto|left; eapply lock_walk_sat; exact Hl]. }
        pose proof (size_bound _ _ _ I' HJ') as Hb. pose proof (reqs_bound _ _ _ (size g) I' HJ' ltac:(lia)) as Hrb.
        unfold cpot in *. rewrite sumf_app. cbn [sumf] in *.
        rewrite (sumf_ext _ (fun i => 1 + length (reqs_at g' i)) (fun i => 1 + length (reqs_at g i)) q).
        + cbn [length] in H. rewrite Hsz in *. set (W := length (words (length U))) in *.
          assert (E : (3 + length U) * (W - size g) = (3 + length U) * (W - S (size g)) + (3 + length U)) by nia. lia.
        + intros j Hj. rewrite Hreq. destruct (Nat.eqb_spec j (size g)) as [->|]; [|auto].
          destruct (gi_q _ _ _ _ _ _ I) as [_ Hq]. destruct (Hq _ Hj). lia.
      - intros k g i q P nd I [HJ H] Hn. exists (cpot g q (deps_of i nd ++ P)). split; [|split; [eapply cyc_pop; eauto | lia]].
        unfold cpot in *. cbn [sumf] in H. rewrite app_length. unfold deps_of. rewrite map_length.
        assert (Er : reqs_at g i = n_reqs nd) by (unfold reqs_at; now rewrite Hn). rewrite Er in H. lia.
      - split; [apply cyc_init | lia].
    Qed.
  End Finite.
End Cycles.
