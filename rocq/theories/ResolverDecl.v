(** * What each package of the tree asks for is what its manifest says *)
From Verif Require Import Base Types ResolverModel ResolverProofs ResolverRun ResolverSpec ResolverThms ResolverSteps ResolverFacts.
From Coq Require Import Permutation.

(** the last entry of a manifest section whose name is [x] up to letter case *)
Fixpoint last_entry (x : string) (l : list (string * string)) : option (string * string) :=
  match l with
  | [] => None
  | (nm, str) :: t => match last_entry x t with
                      | Some e => Some e
                      | None => if String.eqb (ufold nm) x then Some (nm, str) else None
                      end
  end.

(** A manifest asks for dependency [x] with spec [sp], as type [t]: development dependencies count for the root only
    and win over optional ones, which win over ordinary ones; peer dependencies are never asked for. *)
Definition asks (parse_dep : string -> string -> res err pspec) (m : manifest) (is_root : bool) (x : string) (sp : pspec) (t : deptype) : Prop :=
  exists nm str, parse_dep nm str = Ok sp /\
    match t with
    | Dev => is_root = true /\ last_entry x (m_dev m) = Some (nm, str)
    | Opt => (is_root = true -> last_entry x (m_dev m) = None) /\ last_entry x (m_opt m) = Some (nm, str)
    | Prod => (is_root = true -> last_entry x (m_dev m) = None) /\ last_entry x (m_opt m) = None /\ last_entry x (m_deps m) = Some (nm, str)
    | Peer => False
    end.

Section Decl.
  Variable rsat : range -> version -> bool.
  Variable canon : string -> option string.
  Variable parse_dep : string -> string -> res err pspec.

  Lemma add_reqs_get l t : forall acc r, add_reqs parse_dep l t acc = Ok r -> forall y,
    match last_entry y l with
    | Some (nm, str) => exists sp, parse_dep nm str = Ok sp /\ sget y r = Some (sp, t)
    | None => sget y r = sget y acc
    end.
  Proof.
    induction l as [|[nm str] l IH]; cbn [add_reqs last_entry]; intros acc r H y; [injection H as <-; reflexivity|].
    destruct (parse_dep nm str) as [sp| |] eqn:Ep; cbn [rbind] in H; try discriminate.
    specialize (IH _ _ H y). destruct (last_entry y l) as [[nm' str']|]; [exact IH|].
    destruct (String.eqb (ufold nm) y) eqn:E.
    - apply seqb_spec in E. subst y. rewrite sget_sput_eq in IH. eauto.
    - rewrite sget_sput_neq in IH; [exact IH|]. intros ->. rewrite (proj2 (seqb_spec _ _) eq_refl) in E. discriminate.
  Qed.

  Lemma new_node_asks name pkg m b n : new_node parse_dep name pkg m b = Ok n ->
    forall x sp t, sget x (n_reqs n) = Some (sp, t) <-> asks parse_dep m b x sp t.
  Proof.
    unfold new_node. intros H x sp t.
    destruct (add_reqs parse_dep (m_deps m) Prod []) as [r1| |] eqn:E1; cbn [rbind] in H; try discriminate.
    destruct (add_reqs parse_dep (m_opt m) Opt r1) as [r2| |] eqn:E2; cbn [rbind] in H; try discriminate.
    destruct (if b then add_reqs parse_dep (m_dev m) Dev r2 else Ok r2) as [r3| |] eqn:E3; cbn [rbind] in H; try discriminate.
    injection H as <-. cbn [n_reqs].
    pose proof (add_reqs_get _ _ _ _ E1 x) as G1. pose proof (add_reqs_get _ _ _ _ E2 x) as G2.
    assert (G3 : (b = true -> match last_entry x (m_dev m) with
                 | Some (nm, str) => exists sp, parse_dep nm str = Ok sp /\ sget x r3 = Some (sp, Dev)
                 | None => sget x r3 = sget x r2 end) /\ (b = false -> sget x r3 = sget x r2)).
    { destruct b; (split; [intros Hb | intros Hb]); try discriminate.
      - exact (add_reqs_get _ _ _ _ E3 x).
      - injection E3 as ->. reflexivity. }
    destruct G3 as [G3 G3']. unfold asks. change (sget x []) with (@None (pspec * deptype)) in G1.
    assert (Hlow : (b = true -> last_entry x (m_dev m) = None) -> sget x r3 = sget x r2).
    { intros Hn. destruct b; [|auto]. specialize (G3 eq_refl). rewrite (Hn eq_refl) in G3. exact G3. }
    split.
    - intros H. destruct (if b then last_entry x (m_dev m) else None) as [[nm str]|] eqn:Ed.
      + destruct b; [|discriminate]. specialize (G3 eq_refl). rewrite Ed in G3. destruct G3 as (sp' & Hp & G3).
        rewrite G3 in H. injection H as <- <-. exists nm, str. auto.
      + assert (Hn : b = true -> last_entry x (m_dev m) = None) by (intros ->; exact Ed).
        rewrite (Hlow Hn) in H. destruct (last_entry x (m_opt m)) as [[nm str]|] eqn:Eo.
        * destruct G2 as (sp' & Hp & G2). rewrite G2 in H. injection H as <- <-. exists nm, str. auto.
        * rewrite G2 in H. destruct (last_entry x (m_deps m)) as [[nm str]|] eqn:Ep.
          -- destruct G1 as (sp' & Hp & G1). rewrite G1 in H. injection H as <- <-. exists nm, str. auto.
          -- rewrite G1 in H. discriminate.
    - intros (nm & str & Hp & H). destruct t; [| | destruct H |].
      + destruct H as (Hn & Ho & Hd). rewrite (Hlow Hn). rewrite Ho in G2. rewrite G2. rewrite Hd in G1.
        destruct G1 as (sp' & Hp' & ->). congruence.
      + destruct H as (-> & Hd). specialize (G3 eq_refl). rewrite Hd in G3. destruct G3 as (sp' & Hp' & ->). congruence.
      + destruct H as (Hn & Ho). rewrite (Hlow Hn). rewrite Ho in G2. destruct G2 as (sp' & Hp' & ->). congruence.
  Qed.

  Variable lnode : Type.
  Variable lnode_path : lnode -> list string.
  Variable lnode_manifest : lnode -> manifest.
  Variable to_package : lnode -> res err (option package).
  Variable deliver : pspec -> outcome -> Prop.
  Variable lock : option (lockpkgs lnode).
  Notation reach := (reach rsat canon parse_dep lnode lnode_path lnode_manifest to_package deliver lock).

  (** where the package and its manifest come from: the registry, or an entry of the lockfile *)
  Definition came_with (p : package) (m : manifest) : Prop :=
    (exists sp, deliver sp (Ok (p, m)))
    \/ (exists lf path ln, lock = Some lf /\ In (path, ln) lf /\ to_package ln = Ok (Some p) /\ m = lnode_manifest ln).

  Variables (root : node) (pkg : package) (m : manifest) (name : string).
  Hypothesis Hroot : new_node parse_dep name pkg m true = Ok root.

  Lemma declared_manifest s : reach root s ->
    (forall x sp t, declares (s_g s) 0 x sp t <-> asks parse_dep m true x sp t)
    /\ forall i n, getn (s_g s) i = Some n -> i <> 0 -> exists m', came_with (n_pkg n) m'
         /\ forall x sp t, declares (s_g s) i x sp t <-> asks parse_dep m' false x sp t.
  Proof.
    pose (J := fun (_ : nat) (g : graph) (_ : list nat) (_ : list dep) =>
      (forall x sp t, req_of g 0 x = Some (sp, t) <-> asks parse_dep m true x sp t)
      /\ forall i p, pkg_of g i = Some p -> i <> 0 -> exists m', came_with p m'
         /\ forall x sp t, req_of g i x = Some (sp, t) <-> asks parse_dep m' false x sp t).
    intros Hs.
    destruct (reach_J rsat canon parse_dep lnode lnode_path lnode_manifest to_package deliver lock 0 J) with (k := 0) (root := root) (pkg := pkg) (m := m) (name := name) (s := s)
      as (k' & _ & H1 & H2); auto.
    - intros k g q P d g' x I [A B] E. exists k. split; [lia|].
      destruct (satisfy_some _ _ _ _ _ _ E) as (nx & _ & _ & _ & ->).
      destruct (gi_P _ _ _ _ _ _ I d (or_introl eq_refl)) as (Hd & _).
      set (g1 := mkGraph (g_nodes g) (g_edges g ++ [mkEdge (d_node d) x (d_spec d) (d_type d)])) in *.
      destruct (link_dep_upd g1 (d_node d) (d_name d) (length (g_edges g)) Hd) as ((_ & _ & _ & _ & U5 & U6 & _) & _).
      split.
      + intros y sp t. rewrite U6. apply A.
      + intros i p. rewrite U5. intros Hp Hne. destruct (B i p Hp Hne) as (m' & C & D). exists m'. split; [auto|].
        intros y sp t. rewrite U6. apply D.
    - intros k g q P d p m' tp g' ci I [A B] E Hprov Ep. exists k. split; [lia|].
      destruct (gi_P _ _ _ _ _ _ I d (or_introl eq_refl)) as (Hd & _).
      destruct (place_child_inv _ _ _ _ _ _ _ _ _ _ Hd (ginv_parlt _ _ _ _ _ _ I) Ep) as (cn & tgt & Hn & -> & U & _).
      destruct U as (_ & _ & _ & _ & _ & U6 & U7 & _). destruct (gi_root _ _ _ _ _ _ I) as [Hz _].
      destruct (new_node_ok _ _ _ _ _ _ Hn) as (_ & N2 & _). split.
      + intros y sp t. rewrite U7. destruct (Nat.eqb_spec 0 (size g)); [lia|]. apply A.
      + intros i p0. rewrite U6. destruct (Nat.eqb_spec i (size g)) as [->|Hne].
        * intros H _. injection H as <-. exists m'. split.
          -- rewrite N2. destruct Hprov as [[_ Hdel]|(lf & ln & Hlk & Hsf & -> & _)]; [left; eauto|right].
             destruct (lockfile_entry _ _ _ _ _ _ _ _ _ _ _ Hsf) as (_ & pre & suf & _ & Hg & Hto & _).
             exists lf, (pre ++ [d_name d]), ln. repeat split; auto.
             eapply aget_In; [|exact Hg]. intros a b. apply (list_eqb_spec _ _ seqb_spec).
          -- intros y sp t. rewrite U7, Nat.eqb_refl. eapply new_node_asks; eauto.
        * intros Hp Hi. destruct (B i p0 Hp Hi) as (m2 & C & D). exists m2. split; [auto|].
          intros y sp t. rewrite U7. destruct (Nat.eqb_spec i (size g)); [contradiction|]. apply D.
    - intros k g i q P n I HJ _. exists k. split; [lia | exact HJ].
    - split.
      + intros x sp t. unfold req_of, getn, init_graph. cbn [g_nodes nth_error]. eapply new_node_asks; eauto.
      + intros i p. unfold pkg_of, getn, init_graph. cbn [g_nodes]. destruct i as [|i]; [congruence|].
        destruct i; cbn; discriminate.
    - split.
      + intros x sp t. rewrite <- (req_declares (s_g s) 0 x sp t). apply H1.
      + intros i n Hn Hi. destruct (H2 i (n_pkg n)) as (m' & C & D); [unfold pkg_of; now rewrite Hn | auto|].
        exists m'. split; [auto|]. intros x sp t. rewrite <- (req_declares (s_g s) i x sp t). apply D.
  Qed.
End Decl.
