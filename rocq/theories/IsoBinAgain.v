(** * A later apply with the isolated linker: .bin is there from the start, so [mkdirp] does not have it in its cache *)
From Verif Require Import Base Types Kdl ResolverModel ResolverProofs ResolverRun ResolverSpec LockfileModel LockfileGraph PathLookup Fs FsPlain FsPad StdPath BinModel HoistedModel HoistedSpec HoistedProofs HoistedThms
  IsolatedModel IsolatedSpec IsolatedProofs IsolatedThms IsoMkdirModel IsoMkdirProofs IsoMkdirThms BinLinkModel IsoBinModel.
Open Scope string_scope.
Open Scope list_scope.

Section Machine.
  Variable META : Type.
  Variable doomed : path -> bool.
  Variable wipe : bool.
  Variable top : path.
  Hypothesis H_top : top <> [].
  Variable rest : list inst.
  Variable final_meta : META.
  Notation pinsts := (map pad (mkInst None [] [(top, EDir)] :: rest)).
  Notation rworld := (rworld META).
  Notation rstep := (rstep META doomed wipe pinsts final_meta).
  Notation rsteps := (rsteps META doomed wipe pinsts final_meta).
  Hypothesis H_kind : forall x t, In x rest -> In t (i_links x) -> (exists l, snd t = ELink l) /\ 2 <= List.length (fst t).
  Hypothesis H_kindm : forall x t, In x rest -> In t (i_main x) -> forall l, snd t <> ELink l.
  Variable d : path.
  Hypothesis D_keep : ~ condemned doomed d.
  Hypothesis D_top : ~ prefix d top.
  Hypothesis D_links : forall y u, In y rest -> In u (i_links y) -> ~ prefix d (removelast (fst u)).

  Record bstate (f : fs) (live : list task) (c : list path) : Prop := {
    b_dir : f d = Some EDir;
    b_cache : ~ In d c;
    b_top : c <> [] -> In top c;
    b_shape : forall x, In x live -> shape rest (snd x) }.
  Definition binv (w : rworld) : Prop :=
    match r_phase _ w with
    | RPruning => r_fs _ w d = Some EDir
    | RExtracting next live => bstate (r_fs _ w) live (r_cache _ w)
    | RDone => r_fs _ w d = Some EDir /\ ~ In d (r_cache _ w) /\ In top (r_cache _ w)
    end.
  Notation mid := (in_mid doomed top).
  Lemma binv_step w w' : rinv META top rest w -> binv w -> rstep w w' -> binv w'.
  Proof.
    intros RI K S.
    destruct S as [f m q Hc Hp Hl|f m Hw|f m Hc Hm|f m i next e Hi Hil Hok|f m i next live c Hc|f m next l1 l2 q e rst c Hna Hok|f m next l1 l2 q x rst x' c Hok
      |f m next l1 l2 e q u rst c Hx Hok Hup|f m next l1 l2 e q u rst c Hx|f m next l1 l2 e q u rst c Hok|f m next l1 l2 q u rst c Hd|f m m' live c Hl|f m live c Hl];
      unfold binv in K |- *; cbn [r_fs r_meta r_phase r_cache] in *.
    - destruct (path_eq_dec d q) as [->|]; [contradiction|auto].
    - exact K.
    - constructor; [exact K|intros []|congruence|intros x []].
    - pose proof RI as [(st & Hst & _ & Hne) _]. cbn [r_cache] in Hne. assert (Est : st = []) by (destruct st; [auto|destruct (Hne ltac:(discriminate) eq_refl)]). subst st. cbn [app] in Hst.
      cbn [map] in Hst. injection Hst as <- <-. cbn [pad i_links flat_map pad_item snd app] in Hil. injection Hil as <-. destruct K as [K1 K2 K3 K4]. constructor.
      + now apply put_dir_stays.
      + intros Hin. apply in_ancestors in Hin; [|auto]. apply D_top. destruct Hin as [->|X]; [exists []; now rewrite app_nil_r|apply X].
      + intros _. apply in_ancestors; auto.
      + intros x [<-|[]]. left. reflexivity.
    - pose proof RI as [(st & Hst & He & Hne) _]. cbn [r_cache] in *. assert (Hs : st <> []) by (intros E; destruct (He E); congruence). destruct st as [|i0 st]; [congruence|]. cbn [app map] in Hst. injection Hst as E0 Hst.
      assert (Hin : In i (map pad rest)) by (rewrite Hst; apply in_app_iff; right; now left). apply in_map_iff in Hin. destruct Hin as (j & <- & Hj).
      destruct K as [K1 K2 K3 K4]. constructor; auto. intros x [<-|Hx]; [|auto]. cbn [snd]. now apply shape_start.
    - destruct K as [K1 K2 K3 K4]. destruct (shape_item rest H_kind q e rst (K4 (false, (q, e) :: rst) ltac:(apply mid; auto)) Hna) as [_ Hsh]. constructor; auto.
      + now apply put_dir_stays.
      + intros x Hx. apply mid in Hx. destruct Hx as [->|Hx]; [exact Hsh|]. apply K4. apply mid. auto.
    - destruct K as [K1 K2 K3 K4]. constructor; auto. now apply put_dir_stays.
    - destruct K as [K1 K2 K3 K4]. destruct (shape_pair rest H_kind H_kindm _ _ _ _ (K4 (false, (e, EDir) :: (q, ELink u) :: rst) ltac:(apply mid; auto))) as (y & Hy & Hyp & Ed & Hsh & _).
      destruct (H_kind y _ Hy Hyp) as [_ Hlen]. cbn [fst] in Hlen.
      assert (Same : forall z, put q (ELink u) (put e EDir f) z = f z) by now apply skip_same. constructor; auto.
      + now rewrite Same.
      + intros x Hx'. apply mid in Hx'. destruct Hx' as [->|Hx']; [exact Hsh|]. apply K4. apply mid. auto.
    - destruct K as [K1 K2 K3 K4]. constructor; auto.
      intros x Hx'. apply mid in Hx'. destruct Hx' as [->|Hx']; [|apply K4; apply mid; auto]. apply (K4 (false, (e, EDir) :: (q, ELink u) :: rst)). apply mid. auto.
    - destruct K as [K1 K2 K3 K4]. destruct (shape_pair rest H_kind H_kindm _ _ _ _ (K4 (true, (e, EDir) :: (q, ELink u) :: rst) ltac:(apply mid; auto))) as (y & Hy & Hyp & Ed & Hsh & Hsh').
      destruct (H_kind y _ Hy Hyp) as [_ Hlen]. cbn [fst] in Hlen.
      pose proof RI as [(st & Hst & He & Hne) (HT & HC)]. cbn [r_fs r_cache] in *.
      assert (Cn : c <> []) by (apply Hne; intros E; destruct (He E) as [E' _]; destruct l1; discriminate).
      assert (Ae : above e q) by (rewrite Ed; now apply above_removelast). assert (Hen : e <> []) by apply Ae.
      assert (MK : put_ok e EDir f).
      { destruct Hok as [H|[(_ & H & H2 & H3)|(_ & _ & H)]]; [| |exact H].
        - destruct (HC e H) as (_ & H1 & H2). split; [|auto]. intros z Hz. right. apply (HC z). auto.
        - destruct (HC _ H) as (_ & _ & H5). split; [|auto]. intros z Hz. right. destruct (above_split z e Hz) as [->|Ha]; [auto|]. apply (HC z). auto. }
      pose proof (D_links y _ Hy Hyp) as ND. cbn [fst] in ND. rewrite <- Ed in ND. constructor.
      + now apply put_dir_stays.
      + intros Hin. destruct (mkdirp_cache_in c e _ Hen Hin) as [H|[H|H]]; [contradiction| |apply ND, H]. apply ND. rewrite H. exists []. now rewrite app_nil_r.
      + intros _. apply mkdirp_cache_keeps. auto.
      + intros x Hx'. apply mid in Hx'. destruct Hx' as [->|Hx']; [exact Hsh'|]. apply K4. apply mid. auto.
    - destruct K as [K1 K2 K3 K4]. destruct (shape_link rest H_kind H_kindm _ _ _ (K4 (false, (q, ELink u) :: rst) ltac:(apply mid; auto))) as (y & Hy & Hyp & Hsh).
      pose proof RI as [_ (HT & HC)]. cbn [r_fs r_cache] in HT, HC.
      assert (Hup : forall a, above a q -> f a = Some EDir).
      { destruct (HT (false, (q, ELink u) :: rst) ltac:(apply mid; auto)) as [[]|(q' & u' & l & E & _ & H & _ & Hu)]. cbn [snd] in E. injection E as <- <- <-. auto. }
      constructor; auto.
      + apply put_dir_stays; [auto|]. split; [intros z Hz; right; auto|exact Logic.I].
      + intros x Hx'. apply mid in Hx'. destruct Hx' as [->|Hx']; [exact Hsh|]. apply K4. apply mid. auto.
    - exact K.
    - destruct K as [K1 K2 K3 K4]. split; [exact K1|]. split; [exact K2|]. apply K3. pose proof RI as [(st & Hst & _ & Hne) _]. cbn [r_cache] in Hne. apply Hne. intros ->. discriminate.
  Qed.
  Lemma binv_run f0 m0 w : f0 d = Some EDir -> rsteps (mkR _ f0 m0 RPruning []) w -> binv w.
  Proof.
    intros D0 S. induction S as [|w1 w2 S IH H]; [exact D0|]. destruct (rsteps_proj META doomed wipe top H_top rest final_meta H_kind H_kindm f0 m0 w1 S) as [H1 _]. eapply binv_step; eauto.
  Qed.
End Machine.

Section Again.
  Variable hex8 : string -> string.
  Variable root : path.
  Variable contents : resolution -> list (path * string).
  Variable rsat : range -> version -> bool.
  Variable canon : string -> option string.
  Variable deliver : pspec -> outcome -> Prop.
  Variable g : graph.
  Hypothesis W : wf rsat canon deliver g.
  Variable A : Type.
  Variable lock : A.
  Variable bins : resolution -> list (string * list comp).
  Definition root_bin : path := ["node_modules"; ".bin"].

  Lemma bin_kept f (a : A) : iwipes f (Some a) = false -> ~ condemned (idoomed hex8 root f (Some a) g) root_bin.
  Proof.
    intros Hw (d & Hdm & [r Hr]). pose proof W as ((q1 & P1 & I) & Hg & Hn). unfold root_bin in Hr. unfold IsolatedModel.idoomed in Hdm. rewrite Hw in Hdm. apply orb_true_iff in Hdm. destruct Hdm as [Hdm|Hdm].
    - destruct (stale_shape hex8 root rsat canon deliver f g _ W Hdm) as (j & y & c2 & Hdy & -> & Hpl & _). destruct (depends_lt rsat canon deliver g q1 P1 I _ _ _ Hdy) as (Hj & _).
      unfold IsolatedProofs.link_path in Hr. destruct (Nat.eqb_spec j 0) as [->|].
      + rewrite disk_cons, comps_plain in Hr by now apply plain_no_slash. cbn in Hr. injection Hr as Hr _.
        pose proof (dep_name_good rsat canon deliver g q1 P1 I Hg _ _ _ Hdy) as Gx. subst y. destruct Gx as [P|(s & m & Y & _)]; [|discriminate Y]. destruct P as (k & t & E & _ & Hk & _). injection E as <- <-. congruence.
      + unfold sloc in Hr. cbn in Hr. injection Hr as Hr _. discriminate.
    - unfold IsolatedModel.extraneous in Hdm. destruct d as [|d1 [|d2 [|d3 d]]]; try discriminate.
  Qed.
  Lemma bin_stays f (a : A) w : iwipes f (Some a) = false -> f root_bin = Some EDir -> rapply hex8 root contents f (Some a) g lock w -> r_phase _ w = RDone ->
    r_fs _ w root_bin = Some EDir /\ ~ In root_bin (r_cache _ w) /\ In ["node_modules"] (r_cache _ w).
  Proof.
    intros Hw Hb S E.
    pose proof (binv_run A (idoomed hex8 root f (Some a) g) (iwipes f (Some a)) top ltac:(discriminate) (others hex8 contents g) lock
      (m_kind hex8 contents rsat canon deliver g W) (m_kindm hex8 contents rsat canon deliver g W) root_bin (bin_kept f a Hw)) as B.
    assert (N1 : ~ prefix root_bin top) by (intros [r Y]; discriminate Y).
    assert (N2 : forall y u, In y (others hex8 contents g) -> In u (i_links y) -> ~ prefix root_bin (removelast (fst u))).
    { intros y u Hy Hu [r Hr]. destruct (link_in hex8 contents rsat canon deliver g W y u Hy Hu) as (i & x & c' & Hi & _ & Hdx & Ei & _ & _ & Gx). rewrite Ei in Hr. unfold root_bin, IsolatedModel.nm_dir in *. destruct (Nat.eqb i 0).
      + destruct (name_comps x Gx) as [(m & Em)|(s' & m & Em & _)]; rewrite Em in Hr; cbn in Hr; discriminate.
      + unfold IsolatedModel.pkg_dir, IsolatedModel.store_dir in Hr. cbn [app removelast] in Hr.
        destruct (((comps (dir_name hex8 g i) ++ "node_modules" :: comps (pkg_name g i)) ++ ["node_modules"]) ++ comps x) as [|k1 k] eqn:Ek.
        { apply app_eq_nil in Ek. destruct Ek as [Ek _]. apply app_eq_nil in Ek. destruct Ek as [_ Ek]. discriminate. }
        cbn in Hr. injection Hr as Hr _. discriminate. }
    specialize (B N1 N2 f (Some a) w Hb S). unfold binv in B. rewrite E in B. exact B.
  Qed.
  (** the bins of the project's own dependencies: as soon as one of them is to be linked, [mkdirp] fails *)
  Lemma jobs_fail f c : f root_bin = Some EDir -> ~ In root_bin c -> In ["node_modules"] c -> forall jobs, Forall (fun j => fst j = 0) jobs ->
    (exists j, In j jobs /\ lookup f max_links false [] (bin_from ["node_modules"] (snd j)) <> None) ->
    fold_left (fun o j => obind o (link_one (nm_dir hex8 g (fst j)) (snd j))) jobs (Some (f, c)) = None.
  Proof.
    intros Hd Hc Ht. assert (Z : forall jobs, fold_left (fun o (j : nat * (string * list comp)) => obind o (link_one (nm_dir hex8 g (fst j)) (snd j))) jobs None = None) by (induction jobs; cbn; auto).
    induction jobs as [|[i b] jobs IH]; intros F (j & Hj & Hl); [destruct Hj|]. inversion F as [|? ? F1 F2]; subst. cbn [fst] in F1. subst i. cbn [fold_left obind fst snd]. change (nm_dir hex8 g 0) with ["node_modules"].
    unfold link_one. destruct (lookup f max_links false [] (bin_from ["node_modules"] b)) eqn:E.
    - unfold mkdirp. change (["node_modules"] ++ [".bin"]) with root_bin.
      assert (C1 : cached c root_bin = false) by (destruct (cached c root_bin) eqn:Y; [apply existsb_exists in Y as (q & Hq & Y); destruct (path_eq_dec q root_bin) as [->|]; [contradiction|discriminate]|auto]).
      assert (C2 : cached c (removelast root_bin) = true) by (apply existsb_exists; exists ["node_modules"]; split; [exact Ht|reflexivity]).
      rewrite C1, C2. unfold create_dir, exists_. rewrite Hd. cbn [option_map obind]. apply Z.
    - apply IH; [exact F2|]. destruct Hj as [<-|Hj]; [cbn [snd] in Hl; congruence|eauto].
  Qed.
End Again.
