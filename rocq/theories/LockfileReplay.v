(** * Replaying a resolution from its lockfile (C06).
    [G] is a finished graph, [lf] a lockfile that records it, [T] the graph being rebuilt. *)
From Verif Require Import Base Types ResolverModel ResolverProofs ResolverRun ResolverSpec ResolverThms ResolverTerm.
From Coq Require Import Permutation.

(** where a package comes from: version, URL and integrity, or directory, or repository *)
Definition source (r : resolution) : resolution :=
  match r with RNpm _ v u o => RNpm "" v u o | RDir _ p => RDir "" p | RGit _ i => RGit "" i end.
(** the tree has a package from the source of [r] at [path] *)
Definition tree_src (g : graph) (path : list string) (r : resolution) : Prop :=
  exists p, tree_has g path p /\ source (pk_resolved p) = source r.
(** the package at [path] depends on [x], as [sp] in section [t] *)
Definition tree_asks (g : graph) (path : list string) (x : string) (sp : pspec) (t : deptype) : Prop :=
  exists i, installed_at g i path /\ declares g i x sp t.
(** ... and that dependency is linked to the package at [path'] *)
Definition tree_links (g : graph) (path : list string) (x : string) (sp : pspec) (t : deptype) (path' : list string) : Prop :=
  exists i c, installed_at g i path /\ linked g i x sp t c /\ installed_at g c path'.
(** two trees with the same packages at the same paths, the same dependencies and the same links *)
Definition same_tree (g g' : graph) : Prop :=
  (forall path r, tree_src g path r <-> tree_src g' path r)
  /\ (forall path x sp t, tree_asks g path x sp t <-> tree_asks g' path x sp t)
  /\ (forall path x sp t path', tree_links g path x sp t path' <-> tree_links g' path x sp t path').

Section Created.
  Variable rsat : range -> version -> bool.
  Variable canon : string -> option string.
  Variable parse_dep : string -> string -> res err pspec.
  Variable lnode : Type.
  Variable lnode_path : lnode -> list string.
  Variable lnode_manifest : lnode -> manifest.
  Variable to_package : lnode -> res err (option package).
  Variable deliver : pspec -> outcome -> Prop.
  Variable lock : option (lockpkgs lnode).
  Notation SInv := (SInv rsat canon deliver).
  Notation exec := (exec rsat canon parse_dep lnode lnode_path lnode_manifest to_package lock).
  Notation reach := (reach rsat canon parse_dep lnode lnode_path lnode_manifest to_package deliver lock).

  (** every package but the root was first requested by an older one *)
  Definition created (g : graph) : Prop :=
    forall i, 0 < i < size g -> exists e, In e (g_edges g) /\ e_to e = i /\ e_from e < i.

  Lemma created_exec s a s' : SInv s [] -> legal deliver a -> exec s a = Some (Ok s') -> created (s_g s) -> created (s_g s').
  Proof.
    intros HI Hl He.
    refine (exec_R rsat canon parse_dep lnode lnode_path lnode_manifest to_package deliver lock
              (fun g g' => created g -> created g') _ _ _ _ s a s' HI Hl He); auto.
    - intros g q P d g' x I E Hc i Hi.
      destruct (satisfy_some _ _ _ _ _ _ E) as (nx & _ & _ & _ & ->).
      destruct (gi_P _ _ _ _ _ _ I d (or_introl eq_refl)) as (Hd & _).
      set (g1 := mkGraph (g_nodes g) (g_edges g ++ [mkEdge (d_node d) x (d_spec d) (d_type d)])) in *.
      destruct (link_dep_upd g1 (d_node d) (d_name d) (length (g_edges g)) Hd) as ((Hs & _) & Hed).
      rewrite Hs in Hi. destruct (Hc i Hi) as (e & He1 & He2 & He3). exists e. rewrite Hed. cbn. rewrite in_app_iff. auto.
    - intros g q P d p m tp g' ci I E Ep _ Hc i Hi.
      destruct (gi_P _ _ _ _ _ _ I d (or_introl eq_refl)) as (Hd & _).
      destruct (place_child_inv _ _ _ _ _ _ _ _ _ _ Hd (ginv_parlt _ _ _ _ _ _ I) Ep) as (cn & tgt & _ & -> & U & _).
      destruct U as (Hs & Hed & _). rewrite Hed. destruct (Nat.eq_dec i (size g)) as [->|Hne].
      + eexists. split; [rewrite in_app_iff; right; left; reflexivity|]. cbn. auto.
      + destruct (Hc i ltac:(lia)) as (e & He1 & He2 & He3). exists e. rewrite in_app_iff. auto.
  Qed.

  Lemma reach_created root pkg m name s : new_node parse_dep name pkg m true = Ok root -> reach root s -> created (s_g s).
  Proof.
    intros Hroot Hr. induction Hr as [|s a s' Hr IH Hl He].
    - intros i Hi. cbn in Hi. lia.
    - eapply created_exec; eauto. eapply reach_inv; eauto.
  Qed.
End Created.

Section Replay.
  Variable rsat : range -> version -> bool.
  Variable canon : string -> option string.
  Variable parse_dep : string -> string -> res err pspec.
  Variable lnode : Type.
  Variable lnode_path : lnode -> list string.
  Variable lnode_manifest : lnode -> manifest.
  Variable to_package : lnode -> res err (option package).
  Notation sat := (satisfies rsat canon).

  (** a shallower copy of [x] on [i]'s path than the one [i] sees *)
  Definition shadowed (g : graph) (i : nat) (x : string) (c' : nat) : Prop :=
    exists pre suf, installed_at g i (pre ++ suf) /\ installed_at g c' (pre ++ [x]) /\ ~ visible g i x c'.

  (** what package [i] is, up to the name it is published under: an aliased package is read back from the lockfile
      under its alias *)
  Definition is_a (g : graph) (i : nat) (r : resolution) : Prop := exists n, getn g i = Some n /\ source (pk_resolved (n_pkg n)) = source r.

  (** the lockfile says exactly which package is at which path, and what each of them depends on *)
  Definition records (g : graph) (lf : lockpkgs lnode) : Prop :=
    (forall c path x, installed_at g c (path ++ [x]) ->
       exists ln p n r, aget lpath_eqb (path ++ [x]) lf = Some ln /\ lnode_path ln = path ++ [x]
         /\ to_package ln = Ok (Some p) /\ is_a g c r /\ (source (pk_resolved p) = source r /\ pk_name p = x)
         /\ new_node parse_dep x p (lnode_manifest ln) false = Ok n
         /\ forall y sp t, sget y (n_reqs n) = Some (sp, t) <-> declares g c y sp t)
    /\ (forall path ln, aget lpath_eqb path lf = Some ln -> exists c, installed_at g c path).

  (** every dependency is linked to the copy Node would load, that copy satisfies it, and no shallower copy would *)
  Definition pinned (g : graph) : Prop :=
    forall i x sp t, declares g i x sp t -> exists c, linked g i x sp t c /\ visible g i x c
      /\ (forall r, is_a g c r -> sat r sp = Ok true)
      /\ (forall c' r, shadowed g i x c' -> is_a g c' r -> sat r sp = Ok false).

  Variable deliver0 : pspec -> outcome -> Prop.
  Variable G : graph.
  Hypothesis IG : GInv rsat canon deliver0 G [] [].
  Hypothesis CG : created G.
  Variable lf : lockpkgs lnode.
  Hypothesis Hrec : records G lf.
  Hypothesis Hpin : pinned G.

  Variable deliver : pspec -> outcome -> Prop.
  Notation GInv := (GInv rsat canon deliver).

  Let PG : parlt G := ginv_parlt _ _ _ _ _ _ IG.

  Lemma pkg_is g i p : pkg_of g i = Some p -> is_a g i (pk_resolved p).
  Proof. unfold pkg_of. destruct (getn g i) as [n|] eqn:E; intros H; inversion H; subst. exists n; auto. Qed.
  Lemma is_pkg g i r : is_a g i r -> exists p, pkg_of g i = Some p /\ source (pk_resolved p) = source r.
  Proof. intros (n & H & H'). exists (n_pkg n). unfold pkg_of. rewrite H. auto. Qed.

  Lemma is_a_src g i r r' : source r = source r' -> is_a g i r' -> is_a g i r.
  Proof. intros E (n & Hn & H). exists n. split; congruence. Qed.

  Record Rel (T : graph) (phi : nat -> nat) : Prop := {
    r_root : phi 0 = 0;
    r_lt : forall i, i < size T -> phi i < size G;
    r_name : forall i, 0 < i < size T -> name_of T i = name_of G (phi i);
    r_res : forall i p, pkg_of T i = Some p -> exists p', pkg_of G (phi i) = Some p' /\ source (pk_resolved p) = source (pk_resolved p');
    r_pname : forall i p, 0 < i -> pkg_of T i = Some p -> pk_name p = name_of T i;
    r_req : forall i y, i < size T -> req_of T i y = req_of G (phi i) y;
    r_par : forall i p, parent_of T i = Some p -> parent_of G (phi i) = Some (phi p);
    r_inj : forall i j, i < size T -> j < size T -> phi i = phi j -> i = j;
    r_edge : forall e, In e (g_edges T) -> lookup G (phi (e_from e)) (name_of T (e_to e)) (phi (e_to e)) }.

  Section Step.
    Variables (T : graph) (q : list nat) (P : list dep) (phi : nat -> nat).
    Variable IT : GInv T q P.
    Hypothesis R : Rel T phi.
    Let PT : parlt T := ginv_parlt _ _ _ _ _ _ IT.

    Lemma phi_pos i : 0 < i < size T -> 0 < phi i.
    Proof.
      intros Hi. destruct (gi_par _ _ _ _ _ _ IT i Hi) as (p & Hp & _). apply (r_par _ _ R) in Hp.
      destruct (Nat.eq_dec (phi i) 0) as [E|E]; [|lia]. rewrite E in Hp.
      destruct (gi_root _ _ _ _ _ _ IG) as [_ Hr]. congruence.
    Qed.
    Lemma phi_child p x c : child_of T p x = Some c -> child_of G (phi p) x = Some (phi c).
    Proof.
      intros H. destruct (gi_child _ _ _ _ _ _ IT _ _ _ H) as (Hc & Hp & Hn).
      assert (0 < c).
      { destruct (Nat.eq_dec c 0) as [->|]; [|lia]. destruct (gi_root _ _ _ _ _ _ IT) as [_ Hr]. congruence. }
      assert (Hpos : 0 < phi c) by (apply phi_pos; lia).
      destruct (gi_par _ _ _ _ _ _ IG (phi c)) as (p' & Hp' & _ & Hc'); [split; [auto | now apply (r_lt _ _ R)]|].
      rewrite (r_par _ _ R _ _ Hp) in Hp'. inversion Hp'; subst p'.
      rewrite <- (r_name _ _ R) in Hc' by lia. now rewrite Hn in Hc'.
    Qed.
    Lemma phi_under i a : under T i a -> under G (phi i) (phi a).
    Proof. induction 1 as [i|i p a Hp Hu IH]; [constructor|]. eapply under_step; [apply (r_par _ _ R); eauto | auto]. Qed.
    Lemma phi_up i b : under G (phi i) b -> i < size T -> exists a, under T i a /\ phi a = b.
    Proof.
      revert b. induction i as [i IH] using lt_wf_ind. intros b Hu Hi. inversion Hu as [|j p a' Hp Hu']; subst.
      - exists i. split; [constructor | auto].
      - destruct (Nat.eq_dec i 0) as [->|Hne].
        + rewrite (r_root _ _ R) in Hp. destruct (gi_root _ _ _ _ _ _ IG) as [_ Hr]. congruence.
        + destruct (gi_par _ _ _ _ _ _ IT i ltac:(lia)) as (p0 & Hp0 & Hlt & _).
          rewrite (r_par _ _ R _ _ Hp0) in Hp. inversion Hp; subst p.
          destruct (IH p0 Hlt b Hu' ltac:(lia)) as (a & Ha & Hb). exists a. split; [eapply under_step; eauto | auto].
    Qed.
    Lemma phi_path i : i < size T -> node_path T i = node_path G (phi i).
    Proof.
      induction i as [i IH] using lt_wf_ind. intros Hi. destruct (gi_root _ _ _ _ _ _ IT) as [Tz Tr].
      destruct (gi_root _ _ _ _ _ _ IG) as [Gz Gr]. destruct (Nat.eq_dec i 0) as [->|Hne].
      - rewrite (r_root _ _ R). rewrite !node_path_root; auto.
      - destruct (gi_par _ _ _ _ _ _ IT i ltac:(lia)) as (p & Hp & Hlt & _).
        rewrite (node_path_step T PT i p Hi Hne Hp).
        assert (0 < phi i) by (apply phi_pos; lia).
        rewrite (node_path_step G PG (phi i) (phi p)); [|now apply (r_lt _ _ R) | lia | now apply (r_par _ _ R)].
        rewrite <- (r_name _ _ R i) by lia. now rewrite <- IH by lia.
    Qed.

    (** the request of [i] for [x] and the copy the first resolution gave it *)
    Variables (i : nat) (x : string) (sp : pspec) (t : deptype) (c Q : nat).
    Hypothesis Hi : i < size T.
    Hypothesis Hl : lookup G (phi i) x c.
    Hypothesis Hu : under G (phi i) Q.
    Hypothesis Hc : child_of G Q x = Some c.
    Hypothesis Hmin : forall j, under G (phi i) j -> child_of G j x <> None -> under G Q j.
    Variable Qt : nat.
    Hypothesis HuT : under T i Qt.
    Hypothesis HQ : phi Qt = Q.

    Lemma Qt_lt : Qt < size T.
    Proof. apply under_lt in HuT; auto. lia. Qed.
    Lemma T_hit j k : under T i j -> child_of T j x = Some k -> under G Q (phi j).
    Proof. intros H1 H2. apply Hmin; [now apply phi_under|]. rewrite (phi_child _ _ _ H2). discriminate. Qed.
    Lemma T_below j : under T i j -> under T j Qt -> j <> Qt -> child_of T j x = None.
    Proof.
      intros H1 H2 Hne. destruct (child_of T j x) as [k|] eqn:E; [exfalso|easy].
      pose proof (T_hit _ _ H1 E) as H3. apply phi_under in H2. rewrite HQ in H2.
      assert (phi j = Q) by exact (under_antisym G _ _ PG H2 H3).
      apply Hne. apply (r_inj _ _ R); [|apply Qt_lt|congruence]. apply under_lt in H1; auto. lia.
    Qed.
    Lemma placed_lookup k : k < size T -> phi k = c -> lookup T i x k.
    Proof.
      intros Hk E. destruct (gi_child _ _ _ _ _ _ IG _ _ _ Hc) as (Hcs & Hcp & Hcn).
      assert (k <> 0).
      { intros ->. rewrite (r_root _ _ R) in E. subst c. destruct (gi_root _ _ _ _ _ _ IG) as [_ Hr]. congruence. }
      destruct (gi_par _ _ _ _ _ _ IT k ltac:(lia)) as (p & Hp & Hlt & Hck).
      pose proof (r_par _ _ R _ _ Hp) as Hp'. rewrite E, Hcp in Hp'.
      assert (p = Qt). { apply (r_inj _ _ R); [lia | apply Qt_lt | congruence]. }
      subst p. rewrite (r_name _ _ R) in Hck by lia. rewrite E, Hcn in Hck.
      apply (lookup_climb T x k i Qt); auto; [|now constructor].
      intros j Hj1 Hj2 Hne. apply T_below; assumption.
    Qed.
    (** what the lookup finds in the new tree: the same copy, or a shallower one *)
    Lemma found k : lookup T i x k -> phi k = c \/ (phi k <> c /\ shadowed G (phi i) x (phi k)).
    Proof.
      intros H. destruct (lookup_spec _ _ _ _ H) as (qk & Huk & Hck & _).
      pose proof (T_hit _ _ Huk Hck) as HQk. pose proof (phi_child _ _ _ Hck) as HG.
      destruct (Nat.eq_dec (phi k) c) as [|Hne]; [auto | right; split; [auto|]].
      destruct (installed_under _ _ _ _ _ _ IG _ _ (phi_under _ _ Huk) (r_lt _ _ R _ Hi)) as [suf Hs].
      assert (Hqs : phi qk < size G) by (eapply child_of_lt; eauto).
      exists (node_path G (phi qk)), suf. rewrite <- Hs. split; [|split].
      - eapply installed_all; eauto. now apply (r_lt _ _ R).
      - econstructor; [eapply installed_all; eauto | exact HG].
      - intros Hv. apply (lookup_visible _ _ _ _ _ _ IG) in Hv; [|now apply (r_lt _ _ R)].
        apply Hne. apply (lookup_resolve G PG (phi i) (r_lt _ _ R _ Hi)) in Hv.
        apply (lookup_resolve G PG (phi i) (r_lt _ _ R _ Hi)) in Hl. congruence.
    Qed.

    Variable pkg : package.
    Hypothesis Hsat : forall r, is_a G c r -> sat r sp = Ok true.
    Hypothesis Hpkg : is_a G c (pk_resolved pkg).
    Hypothesis Hnone : forall k, k < size T -> phi k <> c.
    Variable d : dep.
    Hypothesis Hd : d_node d = i.
    Hypothesis Hdn : d_name d = x.
    Hypothesis Hds : d_spec d = sp.
    Variable cn : node.
    Hypothesis Hcn1 : n_parent cn = None.
    Hypothesis Hcn2 : n_children cn = [].
    Let g1 := pre_place T d cn.

    Lemma g1_under a b : under g1 a b <-> under T a b.
    Proof. split; apply under_ext; intros; [symmetry|]; now apply pre_parent. Qed.
    Lemma g1_parlt : parlt g1.
    Proof. intros a b. unfold g1. rewrite pre_parent by auto. apply PT. Qed.
    Lemma g1_lookup a y b : lookup g1 a y b <-> lookup T a y b.
    Proof.
      assert (Hp : forall j, parent_of g1 j = parent_of T j) by (intros; now apply pre_parent).
      assert (Hk : forall j z, child_of g1 j z = child_of T j z) by (intros; now apply pre_child).
      split; apply lookup_ext; auto.
    Qed.
    Lemma g1_name j : j < size T -> name_of g1 j = name_of T j.
    Proof. intros H. unfold name_of, g1. rewrite pre_getn. destruct (Nat.eqb_spec j (size T)); [lia | auto]. Qed.
    Lemma g1_path j : j < size T -> node_path g1 j = node_path T j.
    Proof.
      induction j as [j IH] using lt_wf_ind. intros Hj. destruct (gi_root _ _ _ _ _ _ IT) as [Tz Tr].
      assert (Hs : size g1 = S (size T)) by apply pre_size.
      destruct (Nat.eq_dec j 0) as [->|Hne].
      - rewrite !node_path_root; auto using g1_parlt; [lia|]. unfold g1. now rewrite pre_parent.
      - destruct (gi_par _ _ _ _ _ _ IT j ltac:(lia)) as (p & Hp & Hlt & _).
        rewrite (node_path_step T PT j p Hj Hne Hp).
        rewrite (node_path_step g1 g1_parlt j p); auto; [|lia | unfold g1; now rewrite pre_parent].
        rewrite g1_name by auto. now rewrite IH by lia.
    Qed.

    Lemma no_conflict_existing j : under T i j -> under T j Qt ->
      conflict_existing rsat canon g1 j x sp = Ok false.
    Proof.
      intros Hij HjQ. unfold conflict_existing. assert (Hj : j < size T) by (apply under_lt in Hij; auto; lia).
      assert (Hs : size g1 = S (size T)) by apply pre_size.
      destruct (resolve_dep g1 j x) as [r|] eqn:Er; [|easy].
      apply (lookup_resolve g1 g1_parlt j ltac:(lia)) in Er. apply g1_lookup in Er.
      destruct (existsb _ _) eqn:Ee; [exfalso|easy].
      apply existsb_exists in Ee. destruct Ee as (e & He & Hb). apply andb_true_iff in Hb. destruct Hb as [Hb1 Hb2].
      apply Nat.eqb_eq in Hb1.
      destruct (lookup_spec _ _ _ _ Er) as (qr & Hur & Hcr & _).
      destruct (gi_child _ _ _ _ _ _ IT _ _ _ Hcr) as (Hrs & Hrp & Hrn).
      unfold g1, pre_place in He. cbn [g_edges] in He. apply in_app_iff in He. destruct He as [He|[He|[]]].
      2:{ subst e. cbn in Hb1. fold (size T) in Hb1. lia. }
      destruct (gi_edge _ _ _ _ _ _ IT e He) as [Hef _].
      apply is_ancestor_spec in Hb2; [|apply g1_parlt | lia]. apply g1_under in Hb2.
      pose proof (r_edge _ _ R e He) as HeG. rewrite Hb1, Hrn in HeG.
      destruct (lookup_spec _ _ _ _ HeG) as (q' & Huq & Hcq & Hminq).
      assert (Hq' : q' = phi qr).
      { destruct (gi_child _ _ _ _ _ _ IG _ _ _ Hcq) as (_ & Hp1 & _). rewrite (r_par _ _ R _ _ Hrp) in Hp1. congruence. }
      assert (H1 : under G q' Q).
      { apply Hminq; [|congruence]. eapply under_trans; [apply phi_under; exact Hb2|]. rewrite <- HQ. now apply phi_under. }
      assert (H2 : under G Q q').
      { apply Hmin; [|congruence]. rewrite Hq'. apply phi_under. eapply under_trans; eauto. }
      assert (q' = Q) by exact (under_antisym G _ _ PG H1 H2). subst q'. apply (Hnone r Hrs). congruence.
    Qed.
    Lemma no_conflict_req j : under T i j -> under T j Qt -> conflict_req rsat canon g1 j x pkg = Ok false.
    Proof.
      intros Hij HjQ. unfold conflict_req. assert (Hj : j < size T) by (apply under_lt in Hij; auto; lia).
      unfold g1. rewrite pre_getn. destruct (Nat.eqb_spec j (size T)); [lia|].
      destruct (proj1 (getn_lt T j) Hj) as [nd Hn]. rewrite Hn.
      destruct (sget x (n_reqs nd)) as [[req t']|] eqn:Eq; [|easy].
      assert (Hq : req_of T j x = Some (req, t')) by (unfold req_of; now rewrite Hn).
      rewrite (r_req _ _ R j x Hj) in Hq. apply (proj1 (req_declares _ _ _ _ _)) in Hq.
      destruct (Hpin _ _ _ _ Hq) as (c' & _ & Hv & Hok & _).
      apply (lookup_visible _ _ _ _ _ _ IG) in Hv; [|now apply (r_lt _ _ R)].
      assert (Hlj : lookup G (phi j) x c).
      { apply (lookup_between G (phi i) x c Q (phi j) PG Hl Hc Hu Hmin); [now apply phi_under|]. rewrite <- HQ. now apply phi_under. }
      apply (lookup_resolve G PG (phi j) (r_lt _ _ R _ Hj)) in Hv. apply (lookup_resolve G PG (phi j) (r_lt _ _ R _ Hj)) in Hlj.
      assert (c' = c) by congruence. subst c'. rewrite (Hok _ Hpkg). reflexivity.
    Qed.
    Lemma climb_reaches_ j a : under T j a -> a = Qt -> under T i j -> forall tgt,
      climb rsat canon g1 x sp pkg (Some (node_path T Qt)) tgt (parents g1 j) = Ok Qt.
    Proof.
      intros HjQ. induction HjQ as [j|j p a Hp HjQ IH]; intros Ea Hij tgt.
      - rewrite Ea. assert (Hj : Qt < size T) by apply Qt_lt.
        assert (HQQ : under T Qt Qt) by constructor.
        rewrite (parents_unfold g1 Qt g1_parlt) by (unfold g1; rewrite pre_size; lia). cbn [climb].
        rewrite no_conflict_existing by auto. cbn [rbind].
        rewrite no_conflict_req by auto. cbn [rbind].
        rewrite g1_path by auto. replace (lpath_eqb _ _) with true; [easy|]. symmetry. now apply (proj2 (list_eqb_spec _ _ seqb_spec _ _)).
      - assert (Hj : j < size T) by (apply under_lt in Hij; auto; lia).
        assert (HjQ' : under T j Qt) by (rewrite <- Ea; eapply under_step; eauto).
        rewrite (parents_unfold g1 j g1_parlt) by (unfold g1; rewrite pre_size; lia). cbn [climb].
        rewrite no_conflict_existing by auto. cbn [rbind].
        rewrite no_conflict_req by auto. cbn [rbind].
        rewrite g1_path by auto. destruct (lpath_eqb (node_path T Qt) (node_path T j)) eqn:El.
        + apply (proj1 (list_eqb_spec _ _ seqb_spec _ _)) in El. f_equal.
          eapply installed_inj; [eapply installed_all; eauto|]. rewrite <- El. eapply installed_all; eauto. apply Qt_lt.
        + unfold g1 at 2. rewrite pre_parent by auto. rewrite Hp. apply IH; auto.
          eapply under_trans; [exact Hij|]. eapply under_step; [exact Hp | constructor].
    Qed.
    Lemma climb_reaches tgt : climb rsat canon g1 x sp pkg (Some (node_path T Qt)) tgt (parents g1 i) = Ok Qt.
    Proof. apply (climb_reaches_ i Qt); auto. constructor. Qed.
  End Step.

  Lemma walk_finds x sp c : forall j, lookup G j x c -> j < size G -> (forall r, is_a G c r -> sat r sp = Ok true) ->
    exists p ln n, lock_walk rsat canon lnode to_package lf (rev (node_path G j)) x sp = Ok (Some (p, ln))
      /\ lnode_path ln = node_path G c /\ (is_a G c (pk_resolved p) /\ pk_name p = x)
      /\ new_node parse_dep x p (lnode_manifest ln) false = Ok n
      /\ forall y, sget y (n_reqs n) = req_of G c y.
  Proof.
    intros j Hlk. induction Hlk as [j x c Hc|j par x c Hno Hp Hlk IH]; intros Hj Hsat.
    - destruct (gi_child _ _ _ _ _ _ IG _ _ _ Hc) as (Hcs & Hcp & Hcn).
      assert (Hat : installed_at G c (node_path G j ++ [x])) by (econstructor; [eapply installed_all; eauto | exact Hc]).
      destruct Hrec as [Hr1 _]. destruct (Hr1 _ _ _ Hat) as (ln & p & n & r & Hg & Hpath & Hto & Ha & (Hpr & Hpn) & Hnew & Hreq).
      exists p, ln, n. apply (is_a_src _ _ _ _ Hpr) in Ha.
      assert (Hw : forall k : unit -> res err (option (package * lnode)), (match aget lpath_eqb (rev (rev (node_path G j)) ++ [x]) lf with
           | Some ln => let! mp := to_package ln in
               match mp with Some p => let! s := sat (pk_resolved p) sp in if s then Ok (Some (p, ln)) else Ok None | None => k tt end
           | None => k tt end) = Ok (Some (p, ln))).
      { intros k. rewrite rev_involutive, Hg, Hto. cbn [rbind]. rewrite (Hsat _ Ha). reflexivity. }
      split; [|split; [|split; [|split]]]; auto.
      + destruct (rev (node_path G j)) as [|a rp] eqn:E; cbn [lock_walk];
          [exact (Hw (fun _ => Ok None)) | exact (Hw (fun _ => lock_walk rsat canon lnode to_package lf rp x sp))].
      + rewrite Hpath. destruct (installed_path _ _ _ _ _ _ IG _ _ Hat) as [_ ->]. reflexivity.
      + intros y. destruct (sget y (n_reqs n)) as [[s' t']|] eqn:E.
        * symmetry. apply (proj2 (req_declares _ _ _ _ _)). now apply Hreq.
        * destruct (req_of G c y) as [[s' t']|] eqn:E'; [|easy]. apply (proj1 (req_declares _ _ _ _ _)) in E'. apply Hreq in E'. congruence.
    - assert (Hlt : par < j) by now apply PG.
      destruct (IH ltac:(lia) Hsat) as (p & ln & n & H1 & H2). exists p, ln, n. split; [|exact H2].
      rewrite (node_path_step G PG j par); auto; [|lia]. rewrite rev_app_distr. cbn [rev app lock_walk].
      replace (aget lpath_eqb _ lf) with (@None lnode); [exact H1|]. symmetry.
      destruct (aget lpath_eqb _ lf) as [ln'|] eqn:E; [exfalso|easy].
      destruct Hrec as [_ Hr2]. destruct (Hr2 _ _ E) as [c' Hc'].
      rewrite rev_involutive in Hc'. rewrite <- (node_path_step G PG j par) in Hc' by (auto; lia).
      inversion Hc' as [E0 E1|p' path' x' c'' H' Hcc E0 E1]; [destruct (node_path G j); discriminate|].
      apply app_inj_tail in E1. destruct E1 as [-> ->].
      assert (p' = j) by (eapply installed_inj; [exact H' | eapply installed_all; eauto]). subst. congruence.
  Qed.

  Notation lock := (Some lf).
  Notation process_dep := (process_dep rsat canon parse_dep lnode lnode_path lnode_manifest to_package lock).
  Notation process_deps := (process_deps rsat canon parse_dep lnode lnode_path lnode_manifest to_package lock).
  Notation exec := (exec rsat canon parse_dep lnode lnode_path lnode_manifest to_package lock).
  Notation SInv := (SInv rsat canon deliver).

  Lemma removelast_snoc (A : Type) (l : list A) a : removelast (l ++ [a]) = l.
  Proof. apply removelast_last. Qed.

  Lemma replay_dep s d todo phi : SInv s (d :: todo) -> Rel (s_g s) phi ->
    exists s' phi', process_dep s d = Ok s' /\ Rel (s_g s') phi' /\ s_sink s' = s_sink s /\ s_fetches s' = s_fetches s
      /\ ((s_q s' = s_q s /\ size (s_g s') = size (s_g s)) \/ (exists ci, s_q s' = s_q s ++ [ci] /\ size (s_g s') = S (size (s_g s)))).
  Proof.
    intros SI R. destruct SI as [I _ _ _ _]. cbn [app] in I.
    set (T := s_g s) in *. assert (PT : parlt T) by (eapply ginv_parlt; eauto).
    destruct (gi_P _ _ _ _ _ _ I d (or_introl eq_refl)) as (Hd & _ & _ & Hq).
    assert (HqG : req_of G (phi (d_node d)) (d_name d) = Some (d_spec d, d_type d)) by (rewrite <- (r_req _ _ R); auto).
    apply (proj1 (req_declares _ _ _ _ _)) in HqG.
    destruct (Hpin _ _ _ _ HqG) as (c & _ & Hv & Hok & Hno).
    assert (HpG : phi (d_node d) < size G) by now apply (r_lt _ _ R).
    assert (Hl : lookup G (phi (d_node d)) (d_name d) c) by (apply (lookup_visible _ _ _ _ _ _ IG); auto).
    destruct (lookup_spec _ _ _ _ Hl) as (Q & Hu & Hc & Hmin).
    destruct (phi_up _ _ _ _ I R _ _ Hu Hd) as (Qt & HuT & HQ).
    destruct (gi_child _ _ _ _ _ _ IG _ _ _ Hc) as (Hcs & Hcp & Hcn).
    assert (HQt : Qt < size T) by (apply under_lt in HuT; auto; lia).
    unfold ResolverModel.process_dep. fold T.
    destruct (satisfy_dependency rsat canon T d) as [[[g' k]|]| |] eqn:E.
    - (* an existing package *)
      cbn [rbind]. exists (mkSt g' (s_q s) (s_inflight s) (s_sink s) (s_fetches s)), phi.
      split; [reflexivity|]. cbn [s_g s_q s_sink s_fetches].
      destruct (satisfy_some _ _ _ _ _ _ E) as (nk & Hres & Hnk & Hsatk & Eg).
      apply (lookup_resolve T PT _ Hd) in Hres.
      assert (Hk : phi k = c).
      { destruct (found _ _ _ _ I R _ _ _ _ Hd Hl Hc Hmin _ Hres) as [|[_ Hsh]]; [auto|exfalso].
        assert (Hpk : pkg_of T k = Some (n_pkg nk)) by (unfold pkg_of; now rewrite Hnk).
        destruct (r_res _ _ R _ _ Hpk) as (p' & Hp' & Er). apply pkg_is in Hp'. apply (is_a_src _ _ _ _ Er) in Hp'.
        rewrite (Hno _ _ Hsh Hp') in Hsatk. discriminate. }
      destruct (lookup_spec _ _ _ _ Hres) as (qk & _ & Hck & _).
      destruct (gi_child _ _ _ _ _ _ I _ _ _ Hck) as (Hks & _ & Hkn).
      set (g1 := mkGraph (g_nodes T) (g_edges T ++ [mkEdge (d_node d) k (d_spec d) (d_type d)])) in *.
      destruct (link_dep_upd g1 (d_node d) (d_name d) (length (g_edges T)) Hd) as ((U1 & U2 & U3 & U4 & U5 & U6 & U7 & U8) & Ued).
      rewrite <- Eg in *.
      assert (S1 : size g' = size T) by exact U1.
      assert (S2 : forall j, parent_of g' j = parent_of T j) by exact U2.
      assert (S4 : forall j, name_of g' j = name_of T j) by exact U4.
      assert (S5 : forall j, pkg_of g' j = pkg_of T j) by exact U5.
      assert (S6 : forall j y, req_of g' j y = req_of T j y) by exact U6.
      repeat split; auto.
      + apply (r_root _ _ R).
      + intros j. rewrite S1. apply (r_lt _ _ R).
      + intros j. rewrite S1, S4. apply (r_name _ _ R).
      + intros j p. rewrite S5. apply (r_res _ _ R).
      + intros j p. rewrite S5, S4. apply (r_pname _ _ R).
      + intros j y. rewrite S1, S6. apply (r_req _ _ R).
      + intros j p. rewrite S2. apply (r_par _ _ R).
      + intros a b. rewrite S1. apply (r_inj _ _ R).
      + intros e. rewrite Ued, S4. cbn [g_edges g1]. rewrite in_app_iff. intros [He|[<-|[]]]; [now apply (r_edge _ _ R)|].
        cbn. rewrite Hkn, Hk. exact Hl.
    - (* a new package, from the lockfile *)
      cbn [rbind]. unfold satisfy_from_lockfile. rewrite (phi_path _ _ _ _ I R _ Hd).
      destruct (walk_finds (d_name d) (d_spec d) c _ Hl HpG Hok) as (p & ln & cn & Hw & Hpath & (Ha & Hpn) & Hnew & Hreq).
      rewrite Hw. cbn [rbind].
      assert (Hnone : forall k, k < size T -> phi k <> c).
      { intros k Hk Ek. pose proof (placed_lookup _ _ _ _ I R _ _ _ _ Hd Hl Hc Hmin _ HuT HQ _ Hk Ek) as Hlk.
        apply (lookup_resolve T PT _ Hd) in Hlk. destruct (proj1 (getn_lt T k) Hk) as [nk Hnk].
        pose proof (satisfy_none _ _ _ _ E _ _ Hlk Hnk) as Hf.
        assert (Hpk : pkg_of T k = Some (n_pkg nk)) by (unfold pkg_of; now rewrite Hnk).
        destruct (r_res _ _ R _ _ Hpk) as (p' & Hp' & Er). apply pkg_is in Hp'. apply (is_a_src _ _ _ _ Er) in Hp'. rewrite Ek in Hp'.
        rewrite (Hok _ Hp') in Hf. discriminate. }
      destruct (new_node_ok _ _ _ _ _ _ Hnew) as (N1 & N2 & N3 & N4 & N5 & N6).
      assert (Hpc : node_path G c = node_path T Qt ++ [d_name d]).
      { rewrite (phi_path _ _ _ _ I R _ HQt), HQ, <- Hcn. apply node_path_step; auto.
        intros ->. destruct (gi_root _ _ _ _ _ _ IG) as [_ Hr]. congruence. }
      unfold place_child. rewrite Hnew. cbn [rbind].
      assert (Htp : target_parent (Some (lnode_path ln)) = Ok (Some (node_path T Qt))).
      { rewrite Hpath, Hpc. cbn [target_parent]. destruct (node_path T Qt ++ [d_name d]) as [|a l] eqn:El; [destruct (node_path T Qt); discriminate|].
        rewrite <- El, removelast_snoc. reflexivity. }
      rewrite Htp. cbn [rbind].
      change (mkGraph (g_nodes T ++ [cn]) (g_edges T ++ [mkEdge (d_node d) (length (g_nodes T)) (d_spec d) (d_type d)])) with (pre_place T d cn).
      rewrite (climb_reaches T _ _ phi I R (d_node d) (d_name d) (d_spec d) c Q Hd Hl Hu Hc Hmin Qt HuT HQ p Ha Hnone d eq_refl cn N3 N4).
      cbn [rbind].
      pose proof (place_upd T d cn Qt Hd HQt N5 N4) as U. cbv zeta in U.
      change (mkGraph (g_nodes T ++ [cn]) (g_edges T ++ [mkEdge (d_node d) (length (g_nodes T)) (d_spec d) (d_type d)])) with (pre_place T d cn) in U.
      set (g' := add_child _ _ _ _) in *.
      destruct U as (U1 & U2 & U3 & U4 & U5 & U6 & U7 & _).
      exists (mkSt g' (s_q s ++ [length (g_nodes T)]) (s_inflight s) (s_sink s) (s_fetches s)),
             (fun j => if j =? size T then c else phi j).
      split; [reflexivity|]. cbn [s_g s_q s_sink s_fetches].
      split; [|split; [reflexivity|split; [reflexivity|]]].
      2:{ right. exists (size T). auto. }
      destruct (gi_root _ _ _ _ _ _ I) as [Tz Tr].
      split.
      + destruct (Nat.eqb_spec 0 (size T)); [lia|]. apply (r_root _ _ R).
      + intros j Hj. destruct (Nat.eqb_spec j (size T)); [auto|]. apply (r_lt _ _ R). lia.
      + intros j Hj. rewrite U5. destruct (Nat.eqb_spec j (size T)); [now rewrite N1|]. apply (r_name _ _ R). lia.
      + intros j p0. rewrite U6. destruct (Nat.eqb_spec j (size T)); [|apply (r_res _ _ R)].
        intros H; inversion H; subst p0. rewrite N2. destruct (is_pkg _ _ _ Ha) as (p' & Hp' & Er). exists p'; auto.
      + intros j p0 Hj0. rewrite U6, U5. destruct (Nat.eqb_spec j (size T)); [|now apply (r_pname _ _ R)].
        intros H; inversion H; subst p0. now rewrite N2, N1.
      + intros j y Hj. rewrite U7. destruct (Nat.eqb_spec j (size T)); [auto|]. apply (r_req _ _ R). lia.
      + intros j p0. rewrite U3. destruct (Nat.eqb_spec j (size T)).
        * intros H; inversion H; subst p0. destruct (Nat.eqb_spec Qt (size T)); [lia|]. congruence.
        * intros H. pose proof (parent_of_lt _ _ _ H). pose proof (PT _ _ H). destruct (Nat.eqb_spec p0 (size T)); [lia|]. now apply (r_par _ _ R).
      + intros a b Ha' Hb'. destruct (Nat.eqb_spec a (size T)), (Nat.eqb_spec b (size T)); intros Eab; try lia.
        * exfalso. apply (Hnone b); [lia | auto].
        * exfalso. apply (Hnone a); [lia | auto].
        * apply (r_inj _ _ R); auto; lia.
      + intros e. rewrite U2, U5. rewrite in_app_iff. intros [He|[<-|[]]].
        * destruct (gi_edge _ _ _ _ _ _ I e He) as [H1 H2].
          destruct (Nat.eqb_spec (e_from e) (size T)); [lia|]. destruct (Nat.eqb_spec (e_to e) (size T)); [lia|]. now apply (r_edge _ _ R).
        * cbn [e_from e_to]. destruct (Nat.eqb_spec (d_node d) (size T)); [lia|]. fold (size T). rewrite Nat.eqb_refl, N1. exact Hl.
    - exfalso. unfold satisfy_dependency in E. destruct (resolve_dep T (d_node d) (d_name d)) as [k|] eqn:Er; [|discriminate].
      destruct (getn T k) as [nk|] eqn:Hnk; [|discriminate].
      apply (lookup_resolve T PT _ Hd) in Er.
      assert (Hpk : pkg_of T k = Some (n_pkg nk)) by (unfold pkg_of; now rewrite Hnk).
      destruct (r_res _ _ R _ _ Hpk) as (p' & Hp' & Ep). apply pkg_is in Hp'. apply (is_a_src _ _ _ _ Ep) in Hp'.
      destruct (found _ _ _ _ I R _ _ _ _ Hd Hl Hc Hmin _ Er) as [Ek|[_ Hsh]].
      + rewrite Ek in Hp'. rewrite (Hok _ Hp') in E. discriminate.
      + rewrite (Hno _ _ Hsh Hp') in E. discriminate.
    - exfalso. unfold satisfy_dependency in E. destruct (resolve_dep T (d_node d) (d_name d)) as [k|] eqn:Er; [|discriminate].
      apply (lookup_resolve T PT _ Hd) in Er.
      destruct (lookup_spec _ _ _ _ Er) as (qk & _ & Hck & _).
      destruct (gi_child _ _ _ _ _ _ I _ _ _ Hck) as (Hks & _ & _). destruct (proj1 (getn_lt T k) Hks) as [nk Hnk]. rewrite Hnk in E.
      assert (Hpk : pkg_of T k = Some (n_pkg nk)) by (unfold pkg_of; now rewrite Hnk).
      destruct (r_res _ _ R _ _ Hpk) as (p' & Hp' & Ep). apply pkg_is in Hp'. apply (is_a_src _ _ _ _ Ep) in Hp'.
      destruct (found _ _ _ _ I R _ _ _ _ Hd Hl Hc Hmin _ Er) as [Ek|[_ Hsh]].
      + rewrite Ek in Hp'. rewrite (Hok _ Hp') in E. discriminate.
      + rewrite (Hno _ _ Hsh Hp') in E. discriminate.
  Qed.
End Replay.
