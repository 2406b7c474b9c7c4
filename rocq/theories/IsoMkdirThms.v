(** * When an isolated apply fails: the machine of IsoMkdirModel for the trees of the resolver *)
From Verif Require Import Base Types ResolverModel ResolverProofs ResolverRun ResolverSpec LockfileModel LockfileGraph PathLookup Fs FsPlain FsPad HoistedModel HoistedSpec HoistedProofs HoistedThms
  IsolatedModel IsolatedSpec IsolatedProofs IsolatedThms IsoMkdirModel IsoMkdirProofs.
Open Scope string_scope.
Open Scope list_scope.

(** a package that was there before gets no new dependency in a scope in which it had one before *)
Definition no_new_in_scope (g0 g : graph) : Prop := forall p i0 i s y z c0 c, installed_at g0 i0 p -> installed_at g i p ->
  depends g0 i0 (String "@" s ++ "/" ++ y) c0 -> depends g i (String "@" s ++ "/" ++ z) c -> exists c1, depends g0 i0 (String "@" s ++ "/" ++ z) c1.

Section Thms.
  Variable hex8 : string -> string.
  Hypothesis Hhex : hex_ok hex8.
  Variable root : path.
  Hypothesis Hroot : exists t, root = "/" :: t.
  Variable contents : resolution -> list (path * string).
  Hypothesis Hcont : plain_contents contents.
  Variable rsat : range -> version -> bool.
  Variable canon : string -> option string.
  Variable deliver : pspec -> outcome -> Prop.
  Notation dir_name := (dir_name hex8).
  Notation pkg_dir := (pkg_dir hex8).
  Notation store_dir := (store_dir hex8).
  Notation nm_dir := (nm_dir hex8).
  Notation iinst := (iinst hex8 contents).
  Notation iinsts := (iinsts hex8 contents).
  Notation wanted g := (wanted (iinsts g)).
  Notation idoomed := (idoomed hex8 root).
  Notation link_path := (link_path hex8).
  Notation link_text := (link_text hex8).
  Notation home := (home hex8).
  Notation deps_dir := (deps_dir hex8).
  Notation wf := (wf rsat canon deliver).
  Notation apart := (apart hex8).
  Notation rapply := (rapply hex8 root contents).

  Section Run.
  Variable g : graph.
  Hypothesis W : wf g.
  Hypothesis Hapart : apart g g.
  Variable A : Type.
  Variable lock : A.

  Definition top : path := ["node_modules"].
  Definition others : list inst := mkInst None [] (dep_links hex8 g 0) :: map (iinst g) (seq 1 (size g - 1)).
  Definition nmod (x : inst) : path := match i_check x with None => top | Some d => d ++ ["node_modules"] end.
  Lemma others_in x : In x others -> exists i, i < size g /\ i_links x = dep_links hex8 g i /\ nmod x = nm_dir g i /\ ((i = 0 /\ i_main x = []) \/ (0 < i /\ x = iinst g i)).
  Proof.
    pose proof W as ((q0 & P0 & I) & Hg & Hn). unfold others. intros [<-|H].
    - exists 0. split; [apply (gi_root _ _ _ _ _ _ I)|]. auto.
    - apply in_map_iff in H. destruct H as (i & <- & Hi). apply in_seq in Hi. exists i. split; [lia|]. split; [reflexivity|]. split; [|right; split; [lia|auto]].
      unfold nmod, IsolatedModel.nm_dir. cbn [i_check IsolatedModel.iinst]. destruct (Nat.eqb_spec i 0); [lia|reflexivity].
  Qed.
  Lemma name_comps y : good_name y -> (exists m, comps y = [m]) \/ exists s m, comps y = [String "@" s; m] /\ y = (String "@" s ++ "/" ++ m)%string.
  Proof.
    intros [Hy|(s & m & -> & Hs & _ & Hm)]; [left; exists y; apply comps_plain; now apply plain_no_slash|]. right. exists s, m. split; [|auto].
    apply comps_scoped; [auto|now apply plain_no_slash].
  Qed.
  (** a link of package [i] *)
  Lemma link_in x t : In x others -> In t (i_links x) -> exists i y c, i < size g /\ nmod x = nm_dir g i /\ depends g i y c /\ fst t = nm_dir g i ++ comps y /\ fst t = link_path g i y /\ snd t = ELink (link_text g i y c) /\ good_name y.
  Proof.
    pose proof W as ((q0 & P0 & I) & Hg & Hn). intros Hx Ht. destruct (others_in x Hx) as (i & Hi & El & En & _). rewrite El in Ht. destruct t as [p e].
    apply (link_item hex8 rsat canon deliver g q0 P0 I Hn) in Ht. destruct Ht as (y & c & Hd & -> & ->). exists i, y, c. cbn [fst snd]. split; [auto|]. split; [auto|]. split; [auto|].
    split; [|split; [auto|split; [auto|]]].
    - unfold IsolatedProofs.link_path. destruct (Nat.eqb_spec i 0) as [->|]; [symmetry; apply nm_dir_root|]. symmetry. apply nm_dir_loc; auto. lia.
    - apply (dep_name_good rsat canon deliver g q0 P0 I Hg _ _ _ Hd).
  Qed.
  Lemma m_kind x t : In x others -> In t (i_links x) -> (exists l, snd t = ELink l) /\ 2 <= List.length (fst t).
  Proof.
    intros Hx Ht. destruct (link_in x t Hx Ht) as (i & y & c & Hi & _ & Hd & E & _ & El & Gy). split; [eauto|]. rewrite E, app_length.
    pose proof (comps_good_ne _ Gy) as H. destruct (comps y); [congruence|]. cbn [List.length]. unfold IsolatedModel.nm_dir. destruct (Nat.eqb i 0); cbn; [lia|].
    rewrite app_length. cbn. lia.
  Qed.
  Lemma m_kindm x t : In x others -> In t (i_main x) -> forall l, snd t <> ELink l.
  Proof.
    intros Hx Ht l. destruct (others_in x Hx) as (i & Hi & _ & _ & [[-> E]|[H ->]]); [rewrite E in Ht; destruct Ht|]. destruct t as [p e]. apply (ipfiles_item hex8 contents g) in Ht.
    destruct Ht as (fl & -> & [[_ ->]|(b & -> & _)]); discriminate.
  Qed.
  Lemma nm_dir_pos i : 0 < i -> nm_dir g i = pkg_dir g i ++ ["node_modules"].
  Proof. intros H. unfold IsolatedModel.nm_dir. destruct (Nat.eqb_spec i 0); [lia|auto]. Qed.
  Lemma m_nm x : In x others -> nmod x <> [].
  Proof. intros Hx. unfold nmod. destruct (i_check x) as [d|]; [|discriminate]. destruct d; discriminate. Qed.
  Lemma rl_one (l : path) x : removelast (l ++ [x]) = l.
  Proof. apply removelast_last. Qed.
  Lemma rl_two (l : path) x y : removelast (l ++ [x; y]) = l ++ [x].
  Proof. change [x; y] with ([x] ++ [y]). rewrite app_assoc. apply removelast_last. Qed.
  Lemma m_base x t : In x others -> In t (i_links x) -> removelast (fst t) = nmod x \/ exists s, removelast (fst t) = nmod x ++ [s].
  Proof.
    intros Hx Ht. destruct (link_in x t Hx Ht) as (i & y & c & Hi & En & Hd & E & _ & El & Gy). rewrite E, En.
    destruct (name_comps y Gy) as [(m & ->)|(s & m & -> & _)]; [left; apply rl_one|right; exists (String "@" s); apply rl_two].
  Qed.
  Lemma pkg_dir_long i : 3 <= List.length (pkg_dir g i).
  Proof. unfold IsolatedModel.pkg_dir, IsolatedModel.store_dir. cbn. rewrite app_length. cbn. lia. Qed.
  Lemma m_sepN x y t : In x others -> In y others -> In t (i_links y) -> prefix (removelast (nmod x)) (removelast (fst t)) -> prefix (nmod x) (removelast (fst t)).
  Proof.
    pose proof W as ((q0 & P0 & I) & Hg & Hn). intros Hx Hy Ht [r Hr]. destruct (others_in x Hx) as (i & Hi & _ & En & Hcase). rewrite En in *.
    destruct (link_in y t Hy Ht) as (j & z & c & Hj & _ & Hd & E & El & _ & Gz). clear Hcase.
    assert (EQ : exists u, fst t = removelast (fst t) ++ [u]).
    { destruct (fst t) as [|a0 l0] eqn:E0; [destruct (m_kind y t Hy Ht) as [_ H]; rewrite E0 in H; cbn in H; lia|]. exists (List.last (a0 :: l0) ""). now apply app_removelast_last. }
    destruct EQ as [u Hu]. destruct (Nat.eq_dec i 0) as [->|Hi0].
    - change (nm_dir g 0) with top. rewrite E. unfold IsolatedModel.nm_dir. destruct (Nat.eqb j 0).
      + pose proof (comps_good_ne _ Gz) as Hc. destruct (comps z) as [|z1 l]; [congruence|]. cbn. eexists. reflexivity.
      + unfold IsolatedModel.pkg_dir, IsolatedModel.store_dir. cbn [app removelast]. eexists. reflexivity.
    - assert (Hi' : 0 < i < size g) by lia. rewrite (nm_dir_pos i ltac:(lia)) in *. rewrite rl_one in Hr.
      rewrite Hr in Hu. rewrite El in Hu. rewrite <- app_assoc in Hu. rewrite (pkg_dir_loc hex8 g Hn i Hi') in Hu.
      unfold IsolatedProofs.link_path in Hu. destruct (Nat.eqb_spec j 0) as [->|Hj0].
      + exfalso. rewrite <- (app_nil_r (disk [z])) in Hu. eapply root_not_store'; [exact Gz|exact Hu].
      + rewrite <- (app_nil_r (sloc (dir_name g j) _)) in Hu.
        apply (sloc_here hex8 Hhex rsat canon deliver g q0 P0 I Hg (col_inj hex8 Hhex rsat canon deliver g W Hapart)) in Hu; auto; [|lia|discriminate].
        destruct Hu as [<- Hu]. rewrite Hr. rewrite app_nil_r in Hu. rewrite disk_cons in Hu. cbn [disk flat_map] in Hu. rewrite app_nil_r in Hu.
        destruct r as [|r1 r]; cbn [app] in Hu.
        * exfalso. injection Hu as _ Hu. destruct (comps_good_ne _ Gz (eq_sym Hu)).
        * injection Hu as -> _. exists r. rewrite <- app_assoc. reflexivity.
  Qed.
  Lemma m_sepM x t s y u : In x others -> In t (i_links x) -> removelast (fst t) = nmod x ++ [s] -> In y others -> In u (i_main y) -> ~ prefix (removelast (fst t)) (fst u).
  Proof.
    pose proof W as ((q0 & P0 & I) & Hg & Hn). intros Hx Ht Hs Hy Hu [r Hr]. destruct (link_in x t Hx Ht) as (i & z & c & Hi & En & Hd & E & El & _ & Gz). rewrite En in Hs.
    destruct (others_in y Hy) as (j & Hj & _ & _ & [[-> E0]|[Hj0 ->]]); [rewrite E0 in Hu; destruct Hu|].
    destruct u as [p e]. apply (ipfiles_item hex8 contents g) in Hu. destruct Hu as (fl & -> & Hf). cbn [fst] in Hr. rewrite Hs in Hr.
    pose proof (pfiles_ok contents Hcont g _ _ _ Hf) as Hok. rewrite (pkg_dir_loc hex8 g Hn j ltac:(lia)) in Hr.
    assert (Ez : exists s' m, comps z = [String "@" s'; m] /\ s = String "@" s').
    { rewrite E in Hs. destruct (name_comps z Gz) as [(m & Em)|(s' & m & Em & _)]; rewrite Em in Hs.
      - rewrite rl_one in Hs. exfalso. apply (f_equal (@List.length _)) in Hs. rewrite app_length in Hs. cbn in Hs. lia.
      - rewrite rl_two in Hs. apply app_inj_tail in Hs. exists s', m. split; [auto|]. symmetry. apply Hs. }
    destruct Ez as (s' & m & Em & ->). destruct (Nat.eq_dec i 0) as [->|Hi0].
    - change (nm_dir g 0) with ["node_modules"] in Hr. unfold sloc in Hr. cbn [app] in Hr. injection Hr as Hr _. discriminate.
    - rewrite (nm_dir_pos i ltac:(lia)), (pkg_dir_loc hex8 g Hn i ltac:(lia)) in Hr. repeat rewrite <- app_assoc in Hr. cbn [app] in Hr.
      apply (sloc_here hex8 Hhex rsat canon deliver g q0 P0 I Hg (col_inj hex8 Hhex rsat canon deliver g W Hapart)) in Hr; [|lia|lia|constructor|exact Hok].
      destruct Hr as [_ Hr]. cbn in Hr. symmetry in Hr. eapply Hok; eauto.
  Qed.
  Lemma m_nmtop x : In x others -> nmod x = top \/ ~ prefix (removelast (nmod x)) top.
  Proof.
    intros Hx. destruct (others_in x Hx) as (i & Hi & _ & En & [[-> _]|[H _]]); [left; exact En|]. right. rewrite En, (nm_dir_pos i H), rl_one. intros [r Hr].
    pose proof (pkg_dir_long i) as L. apply (f_equal (@List.length _)) in Hr. rewrite app_length in Hr. cbn in Hr. lia.
  Qed.
  Notation rsteps D wipe := (rsteps A D wipe (map pad (iinsts g)) lock).
  (** runs of the real linker are runs of the one without the cache *)
  Lemma refine f m w : rapply f m g lock w -> isteps hex8 root contents f m g lock (proj A w).
  Proof.
    intros S. exact (proj2 (rsteps_proj A (idoomed f m g) (iwipes f m) top ltac:(discriminate) others lock m_kind m_kindm f m w S)).
  Qed.
  Section Ok.
    Variable f : fs.
    Variable m : option A.
    Variable rel : path -> Prop.
    Hypothesis Hrel : forall q e, Fs.wanted (map pad (iinsts g)) q e -> rel q.
    Hypothesis Htree : treelike f.
    Hypothesis Hgood : forall f', pruned (idoomed f m g) f f' -> good_start (map pad (iinsts g)) rel f'.
    Hypothesis Hscope : forall f', pruned (idoomed f m g) f f' -> treelike f' -> scopes_free others nmod f'.
    Notation PF := (p_fun hex8 Hhex contents Hcont rsat canon deliver g W Hapart).
    Notation PM := (p_main hex8 contents g).
    Notation PN := (p_nocheck hex8 contents g).
    Notation PO := (p_ord hex8 Hhex contents Hcont rsat canon deliver g W Hapart).
    Lemma run_no_fail w : rapply f m g lock w -> ~ failed A w.
    Proof.
      exact (never_fails A (idoomed f m g) (iwipes f m) top ltac:(discriminate) others lock m_kind m_kindm rel PF Hrel PM PN PO nmod m_nm m_base m_sepN m_sepM eq_refl m_nmtop f m Hgood Hscope Htree w).
    Qed.
    Lemma run_finishes l w : (forall q, f q <> None -> In q l) -> rapply f m g lock w -> exists w', rapply f m g lock w' /\ r_phase _ w' = RDone /\ rsteps (idoomed f m g) (iwipes f m) w w'.
    Proof.
      intros Hl S. destruct (can_finish A (idoomed f m g) (iwipes f m) top ltac:(discriminate) others lock m_kind m_kindm rel PF Hrel PM PN PO nmod m_nm m_base m_sepN m_sepM eq_refl m_nmtop f m Hgood Hscope Htree (cond_dec _) l w Hl S) as (w' & S' & D).
      exists w'. split; [eapply rsteps_trans; [exact S|exact S']|]. auto.
    Qed.
  End Ok.

  Lemma scope_of x t : scope_dir others nmod x t -> exists i s z c, i < size g /\ depends g i (String "@" s ++ "/" ++ z) c /\ fst t = nm_dir g i ++ [String "@" s; z]
    /\ fst t = link_path g i (String "@" s ++ "/" ++ z) /\ removelast (fst t) = nm_dir g i ++ [String "@" s] /\ snd t = ELink (link_text g i (String "@" s ++ "/" ++ z) c).
  Proof.
    intros (Hx & Ht & s & Hs). destruct (link_in x t Hx Ht) as (i & z & c & Hi & En & Hd & E & El & Et & Gz). rewrite En in Hs. rewrite E in Hs.
    destruct (name_comps z Gz) as [(m & Em)|(s' & m & Em & Ez)]; rewrite Em in *.
    - exfalso. rewrite rl_one in Hs. apply (f_equal (@List.length _)) in Hs. rewrite app_length in Hs. cbn in Hs. lia.
    - exists i, s', m, c. rewrite <- Ez. repeat (split; [assumption|]). split; [|assumption]. rewrite E. apply rl_two.
  Qed.
  Lemma nm_dir_in i : in_nm (nm_dir g i).
  Proof. unfold IsolatedModel.nm_dir. destruct (Nat.eqb i 0); [exists []; reflexivity|]. unfold IsolatedModel.pkg_dir, IsolatedModel.store_dir. eexists. reflexivity. Qed.
  (** a first install, or one after everything was removed *)
  Lemma scope_wipe f (m : option A) f' : iwipes f m = true -> pruned (idoomed f m g) f f' -> scopes_free others nmod f'.
  Proof.
    intros Hw [_ Hp] x t Hxt. right. destruct (scope_of x t Hxt) as (i & s & z & c & Hi & _ & _ & _ & E & _). rewrite E. apply Hp.
    destruct (nm_dir_in i) as [r Hr]. apply (all_condemned_i hex8 root A m f g); [auto| |].
    - exists (r ++ [String "@" s]). now rewrite Hr.
    - rewrite Hr. destruct r; discriminate.
  Qed.
  (** an upgrade *)
  Lemma scope_up g0 f (a : A) f' : wf g0 -> apart g0 g -> compatible g0 g -> no_new_in_scope g0 g -> settled hex8 contents g0 f -> iwipes f (Some a) = false ->
    pruned (idoomed f (Some a) g) f f' -> scopes_free others nmod f'.
  Proof.
    intros W0 Hap Hc Hnew Hset Hw [Pr1 Pr2] x t Hxt. pose proof W as ((q1 & P1 & I) & Hg & Hn). pose proof W0 as ((q0 & P0 & I0) & Hg0 & Hn0).
    destruct (scope_of x t Hxt) as (i & s & z & c & Hi & Hd & E1 & E2 & E3 & E4).
    destruct (f' (removelast (fst t))) as [e|] eqn:Ef; [left|auto].
    assert (NC : ~ condemned (idoomed f (Some a) g) (removelast (fst t))) by (intros H; rewrite (Pr2 _ H) in Ef; discriminate).
    rewrite (Pr1 _ NC) in Ef.
    (* the package was there before *)
    assert (OLD : exists i0 p, i0 < size g0 /\ installed_at g0 i0 p /\ installed_at g i p /\ deps_dir p = nm_dir g i).
    { destruct (Nat.eq_dec i 0) as [->|Hi0]; [exists 0, []; split; [apply (gi_root _ _ _ _ _ _ I0)|]; split; [constructor|]; split; [constructor|reflexivity]|].
      assert (Hi' : 0 < i < size g) by lia. rewrite E3, (nm_dir_pos i ltac:(lia)) in Ef.
      assert (NM : in_nm ((pkg_dir g i ++ ["node_modules"]) ++ [String "@" s])) by (unfold IsolatedModel.pkg_dir, IsolatedModel.store_dir; eexists; reflexivity).
      destruct (proj2 Hset _ _ NM Ef) as [Hwt|[_ Hsp]].
      - destruct (old_package hex8 Hhex contents Hcont rsat canon deliver g0 g W0 W Hap i _ _ Hi' Hwt) as (i0 & H0 & Ep); [rewrite <- app_assoc; eauto|].
        exists i0, (node_path g i). split; [lia|]. split; [rewrite <- Ep; apply (at_path rsat canon deliver g0 i0 W0); lia|]. split; [apply (at_path rsat canon deliver g i W); lia|].
        rewrite (nm_dir_pos i ltac:(lia)). pose proof (node_ne rsat canon deliver g q1 P1 I i ltac:(lia) Hi) as Hnil. rewrite <- (home_loc hex8 rsat canon deliver g i W Hi').
        unfold IsolatedSpec.deps_dir. destruct (node_path g i); [congruence|reflexivity].
      - exfalso. pose proof (pkg_dir_long i) as L. destruct Hsp as [E|[s' E]]; apply (f_equal (@List.length _)) in E; rewrite !app_length in E; cbn in E; lia. }
    destruct OLD as (i0 & p & L0 & In0 & In1 & Ed).
    (* and had a dependency in the scope *)
    assert (DEP : exists y c0, depends g0 i0 (String "@" s ++ "/" ++ y) c0).
    { rewrite E3, <- Ed in Ef. assert (Ap0 : apart g0 g0) by (intros u v w Hu Hv; apply Hap; tauto).
      destruct (look_only hex8 Hhex contents Hcont rsat canon deliver g0 W0 Ap0 f Hset i0 p [String "@" s] e In0 ltac:(discriminate) Ef ltac:(intros _ u; discriminate)) as [(y & c0 & Hy & Ey)|(s' & y & c0 & Hy & _ & Ey & _)].
      - exfalso. pose proof (dep_name_good rsat canon deliver g0 q0 P0 I0 Hg0 _ _ _ Hy) as Gy. destruct Gy as [Hp|(s' & mm & -> & Hs' & _ & Hm)].
        + rewrite comps_plain in Ey by now apply plain_no_slash. injection Ey as <-. apply plain_not_at in Hp. discriminate.
        + rewrite comps_scoped in Ey by (auto; now apply plain_no_slash). discriminate.
      - injection Ey as <-. eauto. }
    destruct DEP as (y & c0 & Hy). destruct (Hnew p i0 i s y z c0 c In0 In1 Hy Hd) as [c1 Hc1].
    destruct (depends_lt rsat canon deliver g0 q0 P0 I0 _ _ _ Hc1) as (_ & Lc1 & _). pose proof (at_path rsat canon deliver g0 c1 W0 ltac:(lia)) as In2.
    destruct (proj2 Hc p i0 i _ c1 _ In0 In1 Hc1 In2) as (c' & Hd' & Hsame). specialize (Hsame eq_refl). rewrite (depends_fun g i _ _ _ Hd' Hd) in Hsame.
    (* the link is there and not condemned, and so is what it leads to *)
    destruct (look_link hex8 Hhex contents rsat canon deliver g0 W0 f Hset i0 p _ c1 _ In0 Hc1 In2) as (txt & Hl & Hwk).
    assert (El : deps_dir p ++ comps (String "@" s ++ "/" ++ z) = fst t).
    { rewrite (look_dir hex8 rsat canon deliver g W i p _ In1). now rewrite E2. }
    rewrite El in Hl, Hwk.
    assert (NCl : ~ condemned (idoomed f (Some a) g) (fst t)).
    { intros (d & Hdm & Hpre). apply NC. exists d. split; [auto|]. destruct (path_eq_dec d (fst t)) as [->|Hne].
      - exfalso. unfold IsolatedModel.idoomed in Hdm. rewrite Hw in Hdm. apply orb_true_iff in Hdm. destruct Hdm as [Hdm|Hdm].
        + destruct (stale_shape hex8 root rsat canon deliver f g _ W Hdm) as (j & y' & c2 & Hdy & Ey & Hpl & _). destruct (depends_lt rsat canon deliver g q1 P1 I _ _ _ Hdy) as (Hj & _).
          assert (Ej : fst t = nm_dir g j ++ [y']).
          { rewrite Ey. rewrite <- (comps_plain y') by now apply plain_no_slash. unfold IsolatedProofs.link_path. destruct (Nat.eqb_spec j 0) as [->|]; [symmetry; apply nm_dir_root|]. symmetry. apply nm_dir_loc; auto. lia. }
          rewrite E1 in Ej. change [String "@" s; z] with ([String "@" s] ++ [z]) in Ej. rewrite app_assoc in Ej. apply app_inj_tail in Ej. destruct Ej as [Ej _].
          assert (Z : nm_dir g j = [] ++ ["node_modules"] \/ exists l, nm_dir g j = l ++ ["node_modules"]) by (unfold IsolatedModel.nm_dir; destruct (Nat.eqb j 0); [left; reflexivity|right; eauto]).
          destruct Z as [Z|[l Z]]; rewrite Z in Ej; apply app_inj_tail in Ej; destruct Ej as [_ Ej]; discriminate.
        + unfold IsolatedModel.extraneous in Hdm. rewrite E1 in Hdm. destruct (Nat.eq_dec i 0) as [->|Hi0].
          * change (nm_dir g 0) with ["node_modules"] in Hdm. cbn [app] in Hdm. change (String.eqb (String "@" s) store_name) with false in Hdm. rewrite andb_false_r in Hdm. discriminate.
          * rewrite (nm_dir_pos i ltac:(lia)) in Hdm. unfold IsolatedModel.pkg_dir, IsolatedModel.store_dir in Hdm. cbn [app] in Hdm.
            pose proof (comps_good_ne _ (dn_good hex8 Hhex rsat canon deliver g q1 P1 I Hg i ltac:(lia))) as Hcn.
            destruct (comps (dir_name g i)) as [|z1 [|z2 l]]; [congruence| |]; cbn [app] in Hdm; [destruct (comps (pkg_name g i)) as [|u1 [|u2 lu]]; discriminate|].
            destruct l as [|l1 l]; cbn [app] in Hdm; discriminate.
      - destruct Hpre as [r Hr]. assert (r <> []) by (intros ->; rewrite app_nil_r in Hr; congruence). destruct (exists_last H) as (r' & u & ->).
        exists r'. rewrite Hr, app_assoc, removelast_last. reflexivity. }
    unfold exists_at. rewrite (Pr1 _ NCl), Hl, Hwk.
    destruct (depends_lt rsat canon deliver g q1 P1 I _ _ _ Hd) as (_ & Lc & _).
    destruct (path_node rsat canon deliver g c _ W Hsame) as [_ Ep]. rewrite Ep, (home_loc hex8 rsat canon deliver g c W Lc).
    assert (HD : f (pkg_dir g c) = Some EDir).
    { rewrite <- (home_loc hex8 rsat canon deliver g c W Lc), <- Ep, (home_loc hex8 rsat canon deliver g0 c1 W0 Lc1). apply (proj1 Hset). left. exists (iinst g0 c1).
      split; [apply (iinsts_in hex8 contents g0); eauto|]. unfold items. apply in_app_iff. left. left. reflexivity. }
    rewrite Pr1; [now rewrite HD|]. rewrite <- (app_nil_r (pkg_dir g c)). apply (main_kept hex8 Hhex root rsat canon deliver A a f g c []); auto; [discriminate|].
    intros s' m' Em. apply (proj1 Hset). assert (Wc : wanted g0 (pkg_dir g0 c1) EDir).
    { left. exists (iinst g0 c1). split; [apply (iinsts_in hex8 contents g0); eauto|]. unfold items. apply in_app_iff. left. left. reflexivity. }
    destruct Wc as [(x0 & Hx0 & Ht0)|(_ & x0 & p0 & e0 & Hx0 & Ht0 & Ha0)].
    - refine (want_above _ x0 _ _ Hx0 Ht0 _). cbn [fst]. rewrite <- (home_loc hex8 rsat canon deliver g0 c1 W0 Lc1), Ep, (home_loc hex8 rsat canon deliver g c W Lc), (pkg_dir_loc hex8 g Hn c Lc).
      unfold sloc. rewrite Em. split; [eexists; reflexivity|]. split; discriminate.
    - refine (want_above _ x0 _ _ Hx0 Ht0 _). cbn [fst]. eapply above_trans; [|exact Ha0]. rewrite <- (home_loc hex8 rsat canon deliver g0 c1 W0 Lc1), Ep, (home_loc hex8 rsat canon deliver g c W Lc), (pkg_dir_loc hex8 g Hn c Lc).
      unfold sloc. rewrite Em. split; [eexists; reflexivity|]. split; discriminate.
  Qed.

  (** a dependency of the project in a scope whose directory is there, but not the link: the apply never ends well *)
  Lemma stuck_up f (a : A) s z c : iwipes f (Some a) = false -> no_slash s = true -> plain z -> depends g 0 (String "@" s ++ "/" ++ z) c ->
    f ["node_modules"; String "@" s] = Some EDir -> f ["node_modules"; String "@" s; z] = None -> forall w, rapply f (Some a) g lock w -> r_phase _ w <> RDone.
  Proof.
    intros Hw Hs Hz Hd Hdir Hno w S. pose proof W as ((q1 & P1 & I) & Hg & Hn).
    assert (Ez : comps (String "@" s ++ "/" ++ z) = [String "@" s; z]) by (apply comps_scoped; [auto|now apply plain_no_slash]).
    assert (Lk : In (["node_modules"; String "@" s; z], ELink (link_text g 0 (String "@" s ++ "/" ++ z) c)) (dep_links hex8 g 0)).
    { apply (link_item hex8 rsat canon deliver g q1 P1 I Hn). exists (String "@" s ++ "/" ++ z)%string, c. split; [auto|]. split; [|auto].
      unfold IsolatedProofs.link_path. cbn [Nat.eqb]. rewrite <- (nm_dir_root hex8 g), Ez. reflexivity. }
    refine (never_done A (idoomed f (Some a) g) (iwipes f (Some a)) top ltac:(discriminate) others lock m_kind m_kindm
      (fun q => in_nm q) (p_fun hex8 Hhex contents Hcont rsat canon deliver g W Hapart) (p_wn hex8 contents rsat canon deliver g W)
      (p_main hex8 contents g) (p_nocheck hex8 contents g) (p_ord hex8 Hhex contents Hcont rsat canon deliver g W Hapart) nmod eq_refl m_nmtop f (Some a) ["node_modules"; String "@" s] ["node_modules"; String "@" s; z] (link_text g 0 (String "@" s ++ "/" ++ z) c)
      eq_refl _ eq_refl (mkInst None [] (dep_links hex8 g 0)) _ Lk _ Hdir Hno _ w S).
    - cbn. lia.
    - left. reflexivity.
    - intros (d & Hdm & [r Hr]). unfold IsolatedModel.idoomed in Hdm. rewrite Hw in Hdm. apply orb_true_iff in Hdm. destruct Hdm as [Hdm|Hdm].
      + destruct (stale_shape hex8 root rsat canon deliver f g _ W Hdm) as (j & y & c2 & Hdy & -> & Hpl & _). destruct (depends_lt rsat canon deliver g q1 P1 I _ _ _ Hdy) as (Hj & _).
        unfold IsolatedProofs.link_path in Hr. destruct (Nat.eqb_spec j 0) as [->|].
        * rewrite disk_cons, comps_plain in Hr by now apply plain_no_slash. cbn in Hr. injection Hr as Hr _. apply plain_not_at in Hpl. rewrite <- Hr in Hpl. discriminate.
        * unfold sloc in Hr. cbn in Hr. injection Hr as Hr _. discriminate.
      + unfold IsolatedModel.extraneous in Hdm. destruct d as [|d1 [|d2 [|d3 d]]]; try discriminate.
    - intros y u Hy Hu [r Hr]. destruct (link_in y u Hy Hu) as (i & x & c' & Hi & _ & Hdx & E & _ & _ & Gx). rewrite E in Hr |- *. unfold IsolatedModel.nm_dir in *. destruct (Nat.eqb i 0).
      + destruct (name_comps x Gx) as [(m & Em)|(s' & m & Em & _)]; rewrite Em in Hr |- *; cbn in Hr |- *; [discriminate|]. injection Hr as <- _. reflexivity.
      + exfalso. unfold IsolatedModel.pkg_dir, IsolatedModel.store_dir in Hr. cbn [app removelast] in Hr.
        destruct (((comps (dir_name g i) ++ "node_modules" :: comps (pkg_name g i)) ++ ["node_modules"]) ++ comps x) as [|k1 k] eqn:Ek.
        { apply app_eq_nil in Ek. destruct Ek as [Ek _]. apply app_eq_nil in Ek. destruct Ek as [_ Ek]. discriminate. }
        cbn in Hr. injection Hr as Hr _. discriminate.
  Qed.
  Lemma stuck_scope f (a : A) x sc z c : iwipes f (Some a) = false -> depends g 0 x c -> comps x = [sc; z] ->
    f ["node_modules"; sc] = Some EDir -> f ["node_modules"; sc; z] = None -> forall w, rapply f (Some a) g lock w -> r_phase _ w <> RDone.
  Proof.
    intros Hw Hd Hx Hdir Hno. pose proof W as ((q1 & P1 & I) & Hg & Hn). pose proof (dep_name_good rsat canon deliver g q1 P1 I Hg _ _ _ Hd) as Gx.
    destruct Gx as [Hp|(s & m & -> & Hs & _ & Hm)]; [rewrite comps_plain in Hx by (now apply plain_no_slash); discriminate|].
    rewrite comps_scoped in Hx by (auto; now apply plain_no_slash). injection Hx as <- <-. now apply (stuck_up f a s m c).
  Qed.
  End Run.
End Thms.
