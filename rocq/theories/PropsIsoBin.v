(** * Property C58: the commands that packages declare (their bins), with the isolated linker.
    [rapply f m g lock w]: an apply of tree [g], up to the end of extraction, started on file system [f] with previous metadata [m], can be in state
    [w]; then [link_bins g pend (fs, cache)] links the bins of the packages [pend], one after the other, or fails ([None]).
    [lookup f k true [] q]: what the kernel opens for the path [q] of the project, following at most [k] links. *)
From Verif Require Import Base Types Kdl ResolverModel ResolverProofs ResolverRun ResolverSpec ResolverThms ResolverSteps ResolverFacts
  LockfileModel LockfileGraph PathLookup Fs FsRun FsPlain FsPad StdPath BinModel HoistedModel HoistedSpec HoistedProofs HoistedThms ResolverExamples HoistedExamples IsolatedModel IsolatedSpec IsolatedProofs IsolatedThms
  PropsIsolated IsoMkdirModel IsoMkdirProofs IsoMkdirThms PropsIsoMkdir BinLinkModel IsoBinModel IsoBinProofs IsoBinThms IsoMkdirRun IsoBinAgain.
Open Scope string_scope.
Open Scope list_scope.

Section World.
  Variable rsat : range -> version -> bool.
  Variable canon : string -> option string.
  Variable hex8 : string -> string.
  Hypothesis Hhex : hex_ok hex8.
  Variable root : path.
  Variable contents : resolution -> list (path * string).
  Hypothesis Hcont : plain_contents contents.
  Variable LOCK : Type.
  Variable bins : resolution -> list (string * list comp).
  Notation rapply := (rapply hex8 root contents).
  Notation tree := (tree rsat canon).
  Notation home := (home hex8).
  Notation deps_dir := (deps_dir hex8).
  Notation bins_of := (bins_of bins).
  Notation link_bins := (link_bins hex8 bins).

  (** [w] is the end of extraction of a first install, or of one that starts from scratch *)
  Definition extracted (g : graph) (w : rworld LOCK) : Prop :=
    exists f m lock, tree g /\ no_collision hex8 (paths g) /\ (f ["node_modules"] = None \/ f ["node_modules"] = Some EDir)
      /\ (m = None \/ f ["node_modules"; ".oro-store"] = None) /\ rapply f m g lock w /\ r_phase _ w = RDone.
  (** ordinary bins: the name is one ordinary name; the path is relative, stays inside the package and does not go through a
      node_modules directory *)
  Definition ordinary (g : graph) (pend : list nat) : Prop := forall c, In c pend -> Forall ok_bin (bins_of g c).

  Lemma cache_done g f m (lock : LOCK) w : tree g -> rapply f m g lock w -> r_phase _ w = RDone -> cache_ok (r_fs _ w) (r_cache _ w).
  Proof.
    intros T S E. pose proof (tree_wf _ _ _ T) as Wf. inversion S as [|w1 w2 S1 St]; subst; [discriminate E|].
    pose proof (proj1 (rsteps_proj LOCK (idoomed hex8 root f m g) (iwipes f m) top ltac:(discriminate) (others hex8 contents g) lock
      (m_kind hex8 contents rsat canon anything g Wf) (m_kindm hex8 contents rsat canon anything g Wf) f m w1 S1)) as R.
    inversion St; subst; try discriminate E. unfold rinv in R. cbn [r_phase r_fs r_cache] in R |- *. apply R.
  Qed.
  Lemma extracted_exact g w : extracted g w -> tree g /\ wf rsat canon anything g /\ apart hex8 g g /\ (forall q e, in_nm q -> (r_fs _ w q = Some e <-> wanted (iinsts hex8 contents g) q e))
    /\ cache_ok (r_fs _ w) (r_cache _ w).
  Proof.
    intros (f & m & lock & T & C & Nm & Sc & S & E). pose proof (tree_wf _ _ _ T) as Wf. pose proof (self_apart rsat canon hex8 g C) as Ap. split; [exact T|]. split; [exact Wf|]. split; [exact Ap|].
    destruct (C18_runs rsat canon hex8 root contents LOCK g f m lock w T S) as (w' & S' & E1 & _ & E3). split; [|exact (cache_done g f m lock w T S E)].
    rewrite <- E1. exact (proj2 (wipe_run hex8 Hhex root contents Hcont rsat canon anything g Wf Ap LOCK lock m f w' (wipes_if LOCK f m Sc) Nm S' (E3 E))).
  Qed.
  Lemma job_in g pend i b : In (i, b) (flat_map (bin_jobs bins g) pend) -> wf rsat canon anything g -> exists c, In c pend /\ In b (bins_of g c) /\ depends g i (name_of g c) c.
  Proof.
    intros Hj ((q0 & P0 & I) & Hg & Hn). apply in_flat_map in Hj as (c & Hc & Hj). exists c. split; [exact Hc|]. unfold bin_jobs in Hj. destruct (Nat.eqb_spec c 0); [contradiction|].
    apply in_flat_map in Hj as (i' & Hi & Hj). apply in_map_iff in Hj as (b' & E & Hb). injection E as -> ->. split; [exact Hb|]. apply (depends_edge rsat canon anything g q0 P0 I). split; [reflexivity|].
    unfold dependents in Hi. apply in_map_iff in Hi as (e & <- & He). apply filter_In in He as [He1 He2]. apply Nat.eqb_eq in He2. apply in_rev in He1. exists e. auto.
  Qed.
  Lemma in_job g pend i b c x : In c pend -> In b (bins_of g c) -> depends g i x c -> wf rsat canon anything g -> In (i, b) (flat_map (bin_jobs bins g) pend).
  Proof.
    intros Hc Hb Hd ((q0 & P0 & I) & Hg & Hn). destruct (depends_lt rsat canon anything g q0 P0 I _ _ _ Hd) as (_ & Hlt & _). apply (depends_edge rsat canon anything g q0 P0 I) in Hd as (_ & e & He & <- & <-).
    apply in_flat_map. exists (e_to e). split; [exact Hc|]. unfold bin_jobs. destruct (Nat.eqb_spec (e_to e) 0); [lia|]. apply in_flat_map. exists (e_from e). split.
    - unfold dependents. apply in_map_iff. exists e. split; [reflexivity|]. apply filter_In. split; [now apply -> in_rev|apply Nat.eqb_refl].
    - apply in_map_iff. eauto.
  Qed.
  Notation linv g w := (linv (r_fs LOCK w) (V g) (nm_dir hex8 g)).
  Lemma run g w pend : extracted g w -> ordinary g pend ->
    exists f' c', link_bins g pend (r_fs _ w, [] :: r_cache _ w) = Some (f', c') /\ linv g w (flat_map (bin_jobs bins g) pend) f' c' /\ Forall (ok_job (V g)) (flat_map (bin_jobs bins g) pend).
  Proof.
    intros X O. destruct (extracted_exact g w X) as (T & Wf & Ap & Ex & Co).
    assert (J : Forall (ok_job (V g)) (flat_map (bin_jobs bins g) pend)).
    { apply Forall_forall. intros [i b] Hj. destruct (job_in g pend i b Hj Wf) as (c & Hc & Hb & Hd). split; [eexists _, _; exact Hd|]. exact (proj1 (Forall_forall _ _) (O c Hc) b Hb). }
    pose proof (hyp_none hex8 Hhex contents Hcont rsat canon anything g Wf Ap _ Ex) as Hno.
    destruct (all_jobs (r_fs _ w) (V g) (nm_dir hex8 g) (H hex8 g) (hyp_N hex8 Hhex contents rsat canon anything g Wf _ Ex) Hno (hyp_tree hex8 contents g _ Ex)
      (hyp_name hex8 Hhex contents Hcont rsat canon anything g Wf Ap _ Ex) (hyp_H hex8 Hhex contents rsat canon anything g Wf _ Ex) (hyp_files hex8 Hhex contents Hcont rsat canon anything g Wf Ap _ Ex)
      (flat_map (bin_jobs bins g) pend) [] (r_fs _ w) ([] :: r_cache _ w)) as (f' & c' & E & I).
    - apply linv_start; [exact Hno| |].
      + intros q [<-|Hq]; [reflexivity|]. destruct (Co q Hq) as (Hq1 & Hq2 & _). unfold is_dir. destruct q; [congruence|]. now rewrite Hq2.
      + intros i Vi [Y|Y]; [destruct (nm_dir hex8 g i); discriminate Y|]. destruct (Co _ Y) as (_ & Y2 & _). rewrite (Hno i [] Vi) in Y2. discriminate.
    - exact J.
    - exists f', c'. split; [exact E|]. split; [exact I|exact J].
  Qed.

  (** C58, first install or from scratch: linking bins does not fail. Missing: bins that are not ordinary, and later applies
      (C58_refuted_again). *)
  Theorem C58_never_fails_partial : forall g w pend, extracted g w -> ordinary g pend -> link_bins g pend (r_fs _ w, [] :: r_cache _ w) <> None.
  Proof. intros g w pend X O. destruct (run g w pend X O) as (f' & c' & -> & _). discriminate. Qed.

  Lemma source_dep g w i n b : extracted g w -> V g i -> ok_bin b -> fst b = n -> source (r_fs _ w) (nm_dir hex8 g) i b <> None ->
    exists d pd, depends g i n d /\ installed_at g d pd /\ source (r_fs _ w) (nm_dir hex8 g) i b = Some (home pd ++ segs_of b) /\ r_fs _ w (home pd ++ segs_of b) <> None.
  Proof.
    intros X Vi Hb <- Sn. destruct (extracted_exact g w X) as (T & Wf & Ap & Ex & Co). pose proof Hb as (B1 & B2 & B3 & B4 & _).
    unfold source in Sn. destruct (r_fs _ w (nm_dir hex8 g i ++ [fst b])) as [e|] eqn:E; [|congruence].
    destruct (only hex8 Hhex contents Hcont rsat canon anything g Wf Ap _ Ex i [fst b] e (V_lt rsat canon anything g Wf i Vi)) as [(x & d & Hd & Ec)|(s & y & c & _ & _ & Y & _)]; [discriminate|intros _ t Y; injection Y as Y _; congruence|exact E| |injection Y as Y; rewrite Y in B4; discriminate].
    destruct (name_dep rsat canon anything g Wf i x d Hd) as (Gx & Hi & Hlt).
    assert (Enx : x = fst b).
    { destruct Gx as [Px|(s & mm & Exx & Hs & _ & Hm)].
      - rewrite (comps_plain x (plain_no_slash x Px)) in Ec. congruence.
      - exfalso. subst x. rewrite (comps_scoped s mm Hs (plain_no_slash mm Hm)) in Ec. discriminate. }
    subst x. exists d, (node_path g d). split; [exact Hd|]. split; [apply (at_path rsat canon anything g d Wf); lia|]. rewrite (home_loc hex8 rsat canon anything g d Wf Hlt).
    pose proof (nm_link hex8 contents rsat canon anything g Wf i (fst b) d Hd) as L. rewrite <- Ec, removelast_last in L. apply (Ex _ _ (wanted_nm hex8 contents rsat canon anything g _ _ Wf L)) in L.
    pose proof (hyp_none hex8 Hhex contents Hcont rsat canon anything g Wf Ap _ Ex) as Hno.
    assert (Es : source (r_fs _ w) (nm_dir hex8 g) i b = match r_fs _ w (pkg_dir hex8 g d ++ segs_of b) with Some _ => Some (pkg_dir hex8 g d ++ segs_of b) | None => None end).
    { apply (source_is (r_fs _ w) (V g) (nm_dir hex8 g) (H hex8 g) (hyp_N hex8 Hhex contents rsat canon anything g Wf _ Ex) Hno (hyp_tree hex8 contents g _ Ex)
        (hyp_H hex8 Hhex contents rsat canon anything g Wf _ Ex) (hyp_files hex8 Hhex contents Hcont rsat canon anything g Wf Ap _ Ex)); auto. exists d. auto. }
    rewrite Es. unfold source in Es. rewrite E in Es. rewrite Es in Sn. destruct (r_fs _ w (pkg_dir hex8 g d ++ segs_of b)); [|congruence]. split; [reflexivity|discriminate].
  Qed.

  (** C58: nothing but .bin directories and their entries changes, and an entry named [n] is a link to a file of the dependency
      named [n]. *)
  Theorem C58_only : forall g w pend f' c', extracted g w -> ordinary g pend -> link_bins g pend (r_fs _ w, [] :: r_cache _ w) = Some (f', c') ->
    forall q, f' q = r_fs _ w q \/ exists i p, installed_at g i p /\
      ((q = deps_dir p ++ [".bin"] /\ f' q = Some EDir)
       \/ exists n c y b d pd, q = deps_dir p ++ [".bin"; n] /\ depends g i y c /\ In c pend /\ In b (bins_of g c) /\ fst b = n
            /\ depends g i n d /\ installed_at g d pd /\ lookup f' max_links true [] q = Some (home pd ++ segs_of b) /\ f' (home pd ++ segs_of b) <> None).
  Proof.
    intros g w pend f' c' X O E q. destruct (run g w pend X O) as (f1 & c1 & E1 & I & J). rewrite E in E1. injection E1 as <- <-.
    destruct (extracted_exact g w X) as (T & Wf & Ap & Ex & Co). destruct (l_only _ _ _ _ _ _ I q) as [K|(i & Vi & K)]; [auto|]. right. pose proof Vi as (x & c & Hd).
    destruct (name_dep rsat canon anything g Wf i x c Hd) as (_ & Hi & _). pose proof (at_path rsat canon anything g i Wf Hi) as Ip. exists i, (node_path g i). split; [exact Ip|]. rewrite (nm_deps hex8 rsat canon anything g Wf i _ Ip).
    destruct K as [K|(n & -> & K)]; [auto|]. right. pose proof (hyp_none hex8 Hhex contents Hcont rsat canon anything g Wf Ap _ Ex) as Hno.
    destruct (follow (r_fs _ w) (V g) (nm_dir hex8 g) (H hex8 g) (hyp_N hex8 Hhex contents rsat canon anything g Wf _ Ex) Hno (hyp_tree hex8 contents g _ Ex)
      (hyp_name hex8 Hhex contents Hcont rsat canon anything g Wf Ap _ Ex) (hyp_H hex8 Hhex contents rsat canon anything g Wf _ Ex) (hyp_files hex8 Hhex contents Hcont rsat canon anything g Wf Ap _ Ex)
      _ f' c' i n I J Vi K) as ([i' b] & Hj & Nj & En & Ef & Sn & Lk). cbn [fst snd] in *. destruct (job_in g pend i' b Hj Wf) as (c0 & Hc0 & Hb & Hd0).
    pose proof (proj1 (Forall_forall _ _) J _ Hj) as [Vj Bj]. cbn [fst snd] in Vj, Bj.
    assert (Eii : i' = i) by (apply (nm_inj hex8 Hhex rsat canon anything g Wf Ap i' i (V_lt rsat canon anything g Wf i' Vj) Hi Nj)).
    subst i'. destruct (source_dep g w i n b X Vi Bj En Sn) as (d & pd & D1 & D2 & D3 & D4). exists n, c0, (name_of g c0), b, d, pd. rewrite Lk. repeat (split; [assumption || reflexivity|]).
    rewrite (l_agree _ _ _ _ _ _ I); [exact D4|]. intros (i2 & Vi2 & P2).
    destruct (hyp_files hex8 Hhex contents Hcont rsat canon anything g Wf Ap _ Ex (home pd) (segs_of b)) as [_ F]; [|apply (ok_bin_segs b Bj)|exact (F i2 Vi2 P2)].
    destruct (path_node rsat canon anything g d pd Wf D2) as [Hdl ->]. destruct (name_dep rsat canon anything g Wf i n d D1) as (_ & _ & Hdr). exists d. split; [exact Hdr|]. apply (home_loc hex8 rsat canon anything g d Wf Hdr).
  Qed.
  (** so a command is missing from the .bin directory of a package unless the package has a dependency of that very name *)
  Theorem C58_missing : forall g w pend f' c', extracted g w -> ordinary g pend -> link_bins g pend (r_fs _ w, [] :: r_cache _ w) = Some (f', c') ->
    forall i p n, installed_at g i p -> (forall d, ~ depends g i n d) -> f' (deps_dir p ++ [".bin"; n]) = None.
  Proof.
    intros g w pend f' c' X O E i p n Hi Hno. destruct (f' (deps_dir p ++ [".bin"; n])) as [e|] eqn:K; [|reflexivity]. exfalso.
    destruct (extracted_exact g w X) as (T & Wf & Ap & Ex & Co). destruct (path_node rsat canon anything g i p Wf Hi) as [Hlt _].
    assert (End : forall j p', installed_at g j p' -> exists z, deps_dir p' = z ++ ["node_modules"]).
    { intros j p' _. unfold IsolatedSpec.deps_dir. destruct p'; [exists []; reflexivity|]. eexists. reflexivity. }
    destruct (C58_only g w pend f' c' X O E (deps_dir p ++ [".bin"; n])) as [K'|(j & p' & Hj & [[K' _]|(n' & c & y & b & d & pd & K' & Hd & _ & _ & _ & Hn & _)])].
    - rewrite K, (nm_deps hex8 rsat canon anything g Wf i p Hi), (bin_none hex8 Hhex contents Hcont rsat canon anything g Wf Ap _ Ex i [n] Hlt) in K'. discriminate.
    - replace (deps_dir p ++ [".bin"; n]) with ((deps_dir p ++ [".bin"]) ++ [n]) in K' by (rewrite <- app_assoc; reflexivity). apply app_inj_tail in K' as [K' _].
      destruct (End j p' Hj) as [z Ez]. rewrite Ez in K'. apply app_inj_tail in K' as [_ K']. discriminate.
    - replace (deps_dir p ++ [".bin"; n]) with ((deps_dir p ++ [".bin"]) ++ [n]) in K' by (rewrite <- app_assoc; reflexivity).
      replace (deps_dir p' ++ [".bin"; n']) with ((deps_dir p' ++ [".bin"]) ++ [n']) in K' by (rewrite <- app_assoc; reflexivity).
      apply app_inj_tail in K' as [K' <-]. apply app_inj_tail in K' as [K' _]. destruct (path_node rsat canon anything g j p' Wf Hj) as [Hlt' _].
      rewrite (nm_deps hex8 rsat canon anything g Wf i p Hi), (nm_deps hex8 rsat canon anything g Wf j p' Hj) in K'. apply (nm_inj hex8 Hhex rsat canon anything g Wf Ap i j Hlt Hlt') in K'. subst j.
      exact (Hno d Hn).
  Qed.

  (** C58: a bin named like the (unscoped) dependency it comes from is in the .bin directory of every package that depends on
      it, and running it runs the file that the dependency declares. [same_bin]: no other dependency of that package declares a
      bin of that name with another path. Missing: bins with other names (C58_missing, C58_refuted), clashes
      (C58_refuted_hijack), and later applies (C58_refuted_again). *)
  Theorem C58_linked_partial : forall g w pend f' c', extracted g w -> ordinary g pend -> link_bins g pend (r_fs _ w, [] :: r_cache _ w) = Some (f', c') ->
    forall i p x c pc n segs body, installed_at g i p -> depends g i x c -> installed_at g c pc -> In c pend -> getn g c = Some n ->
      In (x, map CNormal segs) (bins_of g c) -> In (segs, body) (contents (pk_resolved (n_pkg n))) ->
      (forall y d b, depends g i y d -> In d pend -> In b (bins_of g d) -> fst b = x -> snd b = map CNormal segs) ->
      lookup f' max_links true [] (deps_dir p ++ [".bin"; x]) = Some (home pc ++ segs) /\ f' (home pc ++ segs) = Some (EFile body).
  Proof.
    intros g w pend f' c' X O E i p x c pc n segs body Hi Hd Hpc Hc Hgn Hb Hbody Hsame. destruct (run g w pend X O) as (f1 & c1 & E1 & I & J). rewrite E in E1. injection E1 as <- <-.
    destruct (extracted_exact g w X) as (T & Wf & Ap & Ex & Co). pose proof (hyp_none hex8 Hhex contents Hcont rsat canon anything g Wf Ap _ Ex) as Hno.
    assert (Vi : V g i) by (exists x, c; exact Hd). destruct (name_dep rsat canon anything g Wf i x c Hd) as (Gx & Hil & Hcl). rewrite (nm_deps hex8 rsat canon anything g Wf i p Hi).
    pose proof (in_job g pend i _ c x Hc Hb Hd Wf) as Hj. pose proof (proj1 (Forall_forall _ _) J _ Hj) as [_ Bj]. cbn [snd] in Bj. set (b := (x, map CNormal segs)) in *.
    assert (Es : segs_of b = segs) by (unfold segs_of, b; cbn [snd]; apply segs_normal). destruct (ok_bin_segs b Bj) as (S1 & S2 & S3). rewrite Es in S1, S2, S3.
    destruct (path_node rsat canon anything g c pc Wf Hpc) as [_ Epc]. rewrite Epc, (home_loc hex8 rsat canon anything g c Wf Hcl).
    assert (Cx : comps x = [x]).
    { pose proof Bj as (_ & _ & _ & B4 & _). destruct Gx as [Px|(s & mm & Exx & Hs & _ & Hm)]; [apply (comps_plain x (plain_no_slash x Px))|]. exfalso. unfold b in B4. cbn [fst] in B4. subst x. discriminate B4. }
    pose proof (nm_link hex8 contents rsat canon anything g Wf i x c Hd) as L. rewrite Cx, removelast_last in L. apply (Ex _ _ (wanted_nm hex8 contents rsat canon anything g _ _ Wf L)) in L.
    assert (Ff : r_fs _ w (pkg_dir hex8 g c ++ segs) = Some (EFile body)).
    { rewrite <- (home_loc hex8 rsat canon anything g c Wf Hcl), <- Epc.
      apply (look_files hex8 Hhex contents Hcont rsat canon anything g Wf Ap _ (exact_settled hex8 contents rsat canon anything g Wf _ Ex) c pc n Hpc ltac:(lia) Hgn segs); [intros t ->; apply S2; now left|]. right. eauto. }
    assert (Src : source (r_fs _ w) (nm_dir hex8 g) i b = Some (pkg_dir hex8 g c ++ segs)).
    { rewrite (source_is (r_fs _ w) (V g) (nm_dir hex8 g) (H hex8 g) (hyp_N hex8 Hhex contents rsat canon anything g Wf _ Ex) Hno (hyp_tree hex8 contents g _ Ex)
        (hyp_H hex8 Hhex contents rsat canon anything g Wf _ Ex) (hyp_files hex8 Hhex contents Hcont rsat canon anything g Wf Ap _ Ex) i b (pkg_dir hex8 g c) Vi Bj L) by (exists c; auto). now rewrite Es, Ff. }
    assert (K : f' (nm_dir hex8 g i ++ [".bin"; x]) <> None) by (apply (l_done _ _ _ _ _ _ I (i, b) Hj); cbn [fst snd]; rewrite Src; discriminate).
    split.
    - destruct (follow (r_fs _ w) (V g) (nm_dir hex8 g) (H hex8 g) (hyp_N hex8 Hhex contents rsat canon anything g Wf _ Ex) Hno (hyp_tree hex8 contents g _ Ex)
        (hyp_name hex8 Hhex contents Hcont rsat canon anything g Wf Ap _ Ex) (hyp_H hex8 Hhex contents rsat canon anything g Wf _ Ex) (hyp_files hex8 Hhex contents Hcont rsat canon anything g Wf Ap _ Ex)
        _ f' c' i x I J Vi K) as ([i' b'] & Hj' & Nj & En & Ef & Sn & Lk). cbn [fst snd] in *. rewrite Lk. destruct (job_in g pend i' b' Hj' Wf) as (c0 & Hc0 & Hb0 & Hd0).
      pose proof (proj1 (Forall_forall _ _) J _ Hj') as [Vj _]. cbn [fst] in Vj.
      pose proof (nm_inj hex8 Hhex rsat canon anything g Wf Ap i' i (V_lt rsat canon anything g Wf i' Vj) Hil Nj) as ->.
      assert (b' = b) as -> by (unfold b; rewrite (surjective_pairing b'), En, (Hsame _ _ _ Hd0 Hc0 Hb0 En); reflexivity). exact Src.
    - rewrite (l_agree _ _ _ _ _ _ I); [exact Ff|]. intros (i2 & Vi2 & P2). destruct (hyp_files hex8 Hhex contents Hcont rsat canon anything g Wf Ap _ Ex (pkg_dir hex8 g c) segs) as [_ F]; [exists c; auto|exact S2|exact (F i2 Vi2 P2)].
  Qed.
  (** C58, a later apply: node_modules/.bin, left by an earlier one, is never cleared; as soon as a bin of a dependency of the
      project is to be linked, the apply fails. *)
  Theorem C58_again : forall g f a (lock : LOCK) w pend, tree g -> f ["node_modules"; ".oro-store"] <> None -> f ["node_modules"; ".bin"] = Some EDir ->
    rapply f (Some a) g lock w -> r_phase _ w = RDone ->
    (forall c i y, In c pend -> depends g i y c -> i = 0) ->
    (exists y c b, In c pend /\ depends g 0 y c /\ In b (bins_of g c) /\ lookup (r_fs _ w) max_links false [] (bin_from ["node_modules"] b) <> None) ->
    link_bins g pend (r_fs _ w, [] :: r_cache _ w) = None.
  Proof.
    intros g f a lock w pend T Hs Hb S E Ho (y & c & b & Hc & Hd & Hbb & Hl). pose proof (tree_wf _ _ _ T) as Wf.
    assert (Hw : iwipes f (Some a) = false) by (unfold iwipes; fold store_name in Hs; destruct (f ["node_modules"; store_name]); congruence).
    destruct (bin_stays hex8 root contents rsat canon anything g Wf LOCK lock f a w Hw Hb S E) as (B1 & B2 & B3).
    apply (jobs_fail hex8 g (r_fs _ w) ([] :: r_cache _ w) B1); [intros [Y|Y]; [discriminate Y|exact (B2 Y)]|now right| |].
    - apply Forall_forall. intros [i b'] Hj. destruct (job_in g pend i b' Hj Wf) as (c' & Hc' & _ & Hd'). exact (Ho c' i _ Hc' Hd').
    - exists (0, b). split; [exact (in_job g pend 0 b c y Hc Hbb Hd Wf)|exact Hl].
  Qed.
End World.

(** ** examples *)
Definition js : list comp := map CNormal ["lib"; "index.js"].
(** foo declares two commands, foo and tool; bar and @s/y declare bar and y *)
Definition ex_bins (r : resolution) : list (string * list comp) :=
  match r with RNpm n _ _ _ => if String.eqb n "foo" then [("foo", js); ("tool", js)] else if String.eqb n "bar" then [("bar", js)] else [("y", js)] | _ => [] end.
(** foo declares a command bar; bar none *)
Definition hijack_bins (r : resolution) : list (string * list comp) := match r with RNpm n _ _ _ => if String.eqb n "foo" then [("bar", js)] else [] | _ => [] end.
Definition reg_fb : registry := [("foo", [(v 1 0, no_deps)]); ("bar", [(v 1 0, no_deps)])].
Definition fb_man := man [("foo", "1.0.0"); ("bar", "1.0.0")].
Definition fb : st := get (ex_run (init (mk_root fb_man))
  [APop; AChunk 2 [rs reg_fb (npm "foo" (VVersion (v 1 0))); rs reg_fb (npm "bar" (VVersion (v 1 0)))]; APop; APop]) (mk_root fb_man).
Definition g_fb := s_g fb.
Lemma tree_fb : ex_tree g_fb. Proof. unfold g_fb, fb. apply ex_tree_intro with (reg := reg_fb); [reflexivity | repeat constructor | vm_compute; reflexivity ..]. Qed.
Notation LK := (list (string * lnode)).
Definition rstart (f : fs) (m : option LK) (g : graph) (supp : list path) (fuel : nat) (ops : list rop) : option (rworld LK) :=
  let D := idoomed ex_hex ex_root f m g in let I := map pad (iinsts ex_hex ex_contents g) in
  match rorun LK D (iwipes f m) I (ex_lock g) supp (mkR LK f m RPruning []) ops with Some w => rauto LK D (iwipes f m) I (ex_lock g) supp fuel w | None => None end.
Definition getr (o : option (rworld LK)) : rworld LK := match o with Some w => w | None => mkR LK empty_fs None RPruning [] end.
Lemma rstart_run f m g supp fuel ops : (forall q, f q <> None -> In q supp) -> isSome (rstart f m g supp fuel ops) = true -> 
  ex_rapply f m g (ex_lock g) (getr (rstart f m g supp fuel ops)) /\ r_phase _ (getr (rstart f m g supp fuel ops)) = RDone.
Proof.
  intros Hs H. destruct (rstart f m g supp fuel ops) as [w|] eqn:E; [|discriminate]. cbn [getr]. unfold rstart in E. unfold rapply.
  destruct (rorun _ _ _ _ _ _ _ ops) as [w1|] eqn:E1; [|discriminate].
  assert (C0 : rcovers LK supp (mkR LK f m RPruning [])) by exact Hs.
  destruct (rorun_covers _ _ _ _ _ _ _ _ _ C0 E1) as [S1 C1]. destruct (rauto_sound _ _ _ _ _ _ _ _ _ C1 E) as [S2 P]. split; [|exact P]. eapply rsteps_trans; eauto.
Qed.
Definition rfirst (g : graph) : option (rworld LK) := rstart empty_fs None g [] 200 [].
Lemma rfirst_run g : isSome (rfirst g) = true -> ex_rapply empty_fs None g (ex_lock g) (getr (rfirst g)) /\ r_phase _ (getr (rfirst g)) = RDone.
Proof. unfold rfirst. generalize 200. intros n H. apply rstart_run; [|exact H]. intros q Hq. destruct (Hq eq_refl). Qed.
Notation ex_extracted := (extracted ex_rsat ex_canon ex_hex ex_root ex_contents LK).
Lemma rfirst_extracted g : ex_tree g -> distinct_hashes (all_paths g) = true -> isSome (rfirst g) = true -> ex_extracted g (getr (rfirst g)).
Proof. intros T D H. destruct (rfirst_run g H) as [S E]. exists empty_fs, None, (ex_lock g). split; [exact T|]. split; [exact (ex_collide g T D)|]. auto. Qed.
Definition getl (o : option (fs * list path)) : fs * list path := match o with Some s => s | None => (empty_fs, []) end.
Lemma getl_some o : isSome o = true -> exists f' c', o = Some (f', c') /\ f' = fst (getl o).
Proof. destruct o as [[f' c']|]; [|discriminate]. intros _. exists f', c'. auto. Qed.
Notation fs_fb := (r_fs LK (getr (rfirst g_fb))).
Notation cache_fb := (r_cache LK (getr (rfirst g_fb))).
Lemma js_ok n : n <> ".bin" -> n <> ".oro-store" -> n <> ".." -> starts_at n = false -> ok_bin (n, js).
Proof. intros A B C D. split; [exact A|]. split; [exact B|]. split; [exact C|]. split; [exact D|]. exists ["lib"; "index.js"]. split; [reflexivity|]. repeat split; try discriminate; cbn; intros [Y|[Y|[]]]; discriminate. Qed.
(** the hypotheses of C58_never_fails_partial, C58_only, C58_missing and C58_linked_partial: foo and bar installed together; foo's and bar's
    own commands work, tool is missing *)
Example C58_install : ex_extracted g_fb (getr (rfirst g_fb)) /\ ordinary ex_bins g_fb [1; 2]
  /\ exists f' c', link_bins ex_hex ex_bins g_fb [1; 2] (fs_fb, [] :: cache_fb) = Some (f', c')
     /\ lookup f' max_links true [] ["node_modules"; ".bin"; "foo"] = Some (home ex_hex ["foo"] ++ ["lib"; "index.js"])
     /\ lookup f' max_links true [] ["node_modules"; ".bin"; "bar"] = Some (home ex_hex ["bar"] ++ ["lib"; "index.js"])
     /\ f' ["node_modules"; ".bin"; "tool"] = None.
Proof.
  split; [apply rfirst_extracted; [exact tree_fb|vm_compute; reflexivity|vm_compute; reflexivity]|]. split.
  - intros c [<-|[<-|[]]]; vm_compute bins_of; repeat (constructor; [apply js_ok; (reflexivity || (let Y := fresh in intros Y; discriminate Y))|]); constructor.
  - destruct (getl_some (link_bins ex_hex ex_bins g_fb [1; 2] (fs_fb, [] :: cache_fb))) as (f' & c' & E & Ef); [vm_compute; reflexivity|]. exists f', c'. split; [exact E|]. rewrite Ef. clear.
    split; [vm_compute; reflexivity|]. split; vm_compute; reflexivity.
Qed.
(** The full C58 is false. A command is looked for in the dependency of its own name: foo's second command, tool, is not linked; *)
Theorem C58_refuted : exists g w pend f' c' i n x c segs,
  tree ex_rsat ex_canon g /\ ex_rapply empty_fs None g (ex_lock g) w /\ r_phase _ w = RDone
  /\ link_bins ex_hex ex_bins g pend (r_fs _ w, [] :: r_cache _ w) = Some (f', c')
  /\ i = 0 /\ depends g i x c /\ In c pend /\ In (n, map CNormal segs) (bins_of ex_bins g c)
  /\ r_fs _ w (home ex_hex [x] ++ segs) <> None /\ f' ["node_modules"; ".bin"; n] = None.
Proof.
  destruct (getl_some (link_bins ex_hex ex_bins g_fb [1; 2] (fs_fb, [] :: cache_fb))) as (f' & c' & E & Ef); [vm_compute; reflexivity|].
  destruct (rfirst_run g_fb ltac:(vm_compute; reflexivity)) as [S P].
  exists g_fb, (getr (rfirst g_fb)), [1; 2], f', c', 0, "tool", "foo", 1, ["lib"; "index.js"]. split; [exact tree_fb|]. split; [exact S|]. split; [exact P|]. split; [exact E|]. split; [reflexivity|].
  split; [apply (ex_depends _ _ _ _ tree_fb); [vm_compute; reflexivity|]; vm_compute; eexists; split; [left; reflexivity|auto]|]. split; [left; reflexivity|].
  split; [assert (Hb : bins_of ex_bins g_fb 1 = [("foo", js); ("tool", js)]) by (vm_compute; reflexivity); rewrite Hb; right; left; reflexivity|]. split; [|rewrite Ef; vm_compute; reflexivity].
  intros Y. assert (Z : isSome (fs_fb (home ex_hex ["foo"] ++ ["lib"; "index.js"])) = true) by (vm_compute; reflexivity). rewrite Y in Z. discriminate.
Qed.
(** nor is any command of a scoped package; *)
Theorem C58_refuted_scoped : exists g w pend f' c' n x c segs,
  tree ex_rsat ex_canon g /\ ex_rapply empty_fs None g (ex_lock g) w /\ r_phase _ w = RDone
  /\ link_bins ex_hex ex_bins g pend (r_fs _ w, [] :: r_cache _ w) = Some (f', c')
  /\ x = ("@s/" ++ n)%string /\ depends g 0 x c /\ In c pend /\ In (n, map CNormal segs) (bins_of ex_bins g c)
  /\ r_fs _ w (home ex_hex [x] ++ segs) <> None /\ f' ["node_modules"; ".bin"; n] = None.
Proof.
  destruct (getl_some (link_bins ex_hex ex_bins g_two [1; 2] (r_fs _ (getr (rfirst g_two)), [] :: r_cache _ (getr (rfirst g_two))))) as (f' & c' & E & Ef); [vm_compute; reflexivity|].
  destruct (rfirst_run g_two ltac:(vm_compute; reflexivity)) as [S P].
  exists g_two, (getr (rfirst g_two)), [1; 2], f', c', "y", "@s/y", 2, ["lib"; "index.js"]. split; [exact tree_two|]. split; [exact S|]. split; [exact P|]. split; [exact E|]. split; [reflexivity|].
  split; [apply (ex_depends _ _ _ _ tree_two); [vm_compute; reflexivity|]; vm_compute; eexists; split; [right; left; reflexivity|auto]|]. split; [right; left; reflexivity|].
  split; [assert (Hb : bins_of ex_bins g_two 2 = [("y", js)]) by (vm_compute; reflexivity); rewrite Hb; left; reflexivity|]. split; [|rewrite Ef; vm_compute; reflexivity].
  intros Y. assert (Z : isSome (r_fs _ (getr (rfirst g_two)) (home ex_hex ["@s/y"] ++ ["lib"; "index.js"])) = true) by (vm_compute; reflexivity). rewrite Y in Z. discriminate.
Qed.
(** and if foo declares a command bar, and the project also depends on a package bar that declares none but has a file of that
    path, then the command runs the file of bar. *)
Theorem C58_refuted_hijack : exists g w pend f' c' x c n d segs,
  tree ex_rsat ex_canon g /\ ex_rapply empty_fs None g (ex_lock g) w /\ r_phase _ w = RDone
  /\ link_bins ex_hex hijack_bins g pend (r_fs _ w, [] :: r_cache _ w) = Some (f', c')
  /\ depends g 0 x c /\ In (n, map CNormal segs) (bins_of hijack_bins g c)
  /\ depends g 0 n d /\ bins_of hijack_bins g d = [] /\ x <> n
  /\ lookup f' max_links true [] ["node_modules"; ".bin"; n] = Some (home ex_hex [n] ++ segs).
Proof.
  destruct (getl_some (link_bins ex_hex hijack_bins g_fb [1; 2] (fs_fb, [] :: cache_fb))) as (f' & c' & E & Ef); [vm_compute; reflexivity|].
  destruct (rfirst_run g_fb ltac:(vm_compute; reflexivity)) as [S P].
  exists g_fb, (getr (rfirst g_fb)), [1; 2], f', c', "foo", 1, "bar", 2, ["lib"; "index.js"]. split; [exact tree_fb|]. split; [exact S|]. split; [exact P|]. split; [exact E|].
  split; [apply (ex_depends _ _ _ _ tree_fb); [vm_compute; reflexivity|]; vm_compute; eexists; split; [left; reflexivity|auto]|].
  split; [assert (Hb : bins_of hijack_bins g_fb 1 = [("bar", js)]) by (vm_compute; reflexivity); rewrite Hb; left; reflexivity|]. split; [apply (ex_depends _ _ _ _ tree_fb); [vm_compute; reflexivity|]; vm_compute; eexists; split; [right; left; reflexivity|auto]|].
  split; [vm_compute; reflexivity|]. split; [discriminate|]. rewrite Ef. vm_compute. reflexivity.
Qed.
(** And adding bar to a project that has foo fails, for the directory .bin is there already. *)
Notation w_one := (getr (rfirst t_foo1)).
Definition l_one : fs * list path := getl (link_bins ex_hex ex_bins t_foo1 [1] (r_fs LK w_one, [] :: r_cache LK w_one)).
Definition bin_supp : list path := flat_map (fun d => map (fun n => d ++ n) [[".bin"]; [".bin"; "foo"]; [".bin"; "tool"]]) [["node_modules"]; deps_dir ex_hex ["foo"]].
Lemma one_linked : link_bins ex_hex ex_bins t_foo1 [1] (r_fs LK w_one, [] :: r_cache LK w_one) = Some l_one.
Proof. destruct (getl_some (link_bins ex_hex ex_bins t_foo1 [1] (r_fs LK w_one, [] :: r_cache LK w_one))) as (f' & c' & E & _); [vm_compute; reflexivity|]. unfold l_one. rewrite E. reflexivity. Qed.
Lemma one_bins : bins_of ex_bins t_foo1 1 = [("foo", js); ("tool", js)].
Proof. vm_compute. reflexivity. Qed.
Lemma one_supp q : fst l_one q <> None -> In q (isupp t_foo1 ++ bin_supp).
Proof.
  intros Hq. apply in_app_iff. destruct (rfirst_run t_foo1 ltac:(vm_compute; reflexivity)) as [S P].
  assert (X : ex_extracted t_foo1 w_one) by (apply rfirst_extracted; [exact tree_foo1|vm_compute; reflexivity|vm_compute; reflexivity]).
  assert (O : ordinary ex_bins t_foo1 [1]) by (intros c [<-|[]]; rewrite one_bins; repeat (constructor; [apply js_ok; (reflexivity || (let Y := fresh in intros Y; discriminate Y))|]); constructor).
  pose proof one_linked as E. destruct l_one as [f' c']. cbn [fst] in Hq.
  destruct (C58_only ex_rsat ex_canon ex_hex ex_hex_ok ex_root ex_contents ex_plain LK ex_bins t_foo1 w_one [1] f' c' X O E q) as [K|(i & p & Hi & K)].
  - left. rewrite K in Hq. destruct (C18_runs ex_rsat ex_canon ex_hex ex_root ex_contents _ t_foo1 empty_fs None (ex_lock t_foo1) w_one tree_foo1 S) as (w' & S' & E1 & _). rewrite <- E1 in Hq.
    apply (ex_isupp empty_fs None t_foo1 w' [] ltac:(intros z Hz; destruct (Hz eq_refl)) S' q Hq).
  - right. destruct (ex_installed _ _ _ tree_foo1 Hi) as [Li ->]. change (size t_foo1) with 2 in Li.
    assert (D : deps_dir ex_hex (node_path t_foo1 i) = ["node_modules"] \/ deps_dir ex_hex (node_path t_foo1 i) = deps_dir ex_hex ["foo"]).
    { destruct i as [|[|i]]; [left; vm_compute; reflexivity|right; vm_compute; reflexivity|lia]. }
    apply in_flat_map. exists (deps_dir ex_hex (node_path t_foo1 i)). split; [cbn [In]; destruct D as [->| ->]; auto|].
    apply in_map_iff. destruct K as [[-> _]|(n & c & y & b & d & pd & -> & _ & Hc & Hb & <- & _)]; [exists [".bin"]; split; [reflexivity|now left]|]. exists [".bin"; fst b]. split; [reflexivity|].
    destruct Hc as [<-|[]]. rewrite one_bins in Hb. destruct Hb as [<-|[<-|[]]]; cbn; auto.
Qed.
Definition r_two : option (rworld LK) := rstart (fst l_one) (Some (ex_lock t_foo1)) g_fb (isupp t_foo1 ++ bin_supp) 200 [RRemove foo_link].
Theorem C58_refuted_again : exists g0 g w0 f c0 w pend,
  tree ex_rsat ex_canon g0 /\ tree ex_rsat ex_canon g
  (* foo is installed, and its commands are linked *)
  /\ ex_rapply empty_fs None g0 (ex_lock g0) w0 /\ r_phase _ w0 = RDone /\ link_bins ex_hex ex_bins g0 [1] (r_fs _ w0, [] :: r_cache _ w0) = Some (f, c0)
  (* then foo and bar: bar is extracted, its command is not linked *)
  /\ ex_rapply f (Some (ex_lock g0)) g (ex_lock g) w /\ r_phase _ w = RDone /\ (exists c, pend = [c] /\ depends g 0 "bar" c)
  /\ link_bins ex_hex ex_bins g pend (r_fs _ w, [] :: r_cache _ w) = None.
Proof.
  destruct (rfirst_run t_foo1 ltac:(vm_compute; reflexivity)) as [S P].
  destruct (rstart_run (fst l_one) (Some (ex_lock t_foo1)) g_fb (isupp t_foo1 ++ bin_supp) 200 [RRemove foo_link] one_supp ltac:(vm_compute; reflexivity)) as [S2 P2].
  exists t_foo1, g_fb, w_one, (fst l_one), (snd l_one), (getr r_two), [2].
  split; [exact tree_foo1|]. split; [exact tree_fb|]. split; [exact S|]. split; [exact P|]. split; [rewrite one_linked; apply f_equal, surjective_pairing|].
  split; [exact S2|]. split; [exact P2|]. split.
  - exists 2. split; [reflexivity|]. apply (ex_depends _ _ _ _ tree_fb); [vm_compute; reflexivity|]; vm_compute; eexists; split; [right; left; reflexivity|auto].
  - vm_compute. reflexivity.
Qed.

Print Assumptions C58_never_fails_partial.
Print Assumptions C58_only.
Print Assumptions C58_missing.
Print Assumptions C58_linked_partial.
Print Assumptions C58_again.
Print Assumptions C58_refuted.
Print Assumptions C58_refuted_scoped.
Print Assumptions C58_refuted_hijack.
Print Assumptions C58_refuted_again.
