(** * The hoisted linker: whole runs *)
From Verif Require Import Base Types ResolverModel ResolverProofs ResolverSpec LockfileModel LockfileProofs LockfileGraph PathLookup Fs HoistedModel HoistedSpec HoistedProofs.
Open Scope string_scope.
Open Scope list_scope.

Section Thms.
  Variable requested : pspec -> string.
  Variable gitshow : gitinfo -> string.
  Variable contents : resolution -> list (path * string).
  Hypothesis Hcont : plain_contents contents.
  Notation hinsts := (hinsts contents).
  Notation wanted g := (wanted (hinsts g)).
  Notation doomed := (doomed requested gitshow).
  Notation doomed_old := (doomed_old requested gitshow).
  Notation keeps := (keeps requested gitshow).
  Notation hsteps := (hsteps requested gitshow contents).
  Notation tree_entry := (tree_entry contents).
  Notation META := (list (string * lnode)).

  Variable rsat : range -> version -> bool.
  Variable canon : string -> option string.
  Variable deliver : pspec -> outcome -> Prop.
  Notation GInv := (GInv rsat canon deliver).

  Lemma package_files_at g i n : getn g i = Some n -> package_files contents g i = contents (pk_resolved (n_pkg n)).
  Proof. intros H. unfold package_files. now rewrite H. Qed.

  (** the model's notion of wanted is the specification's *)
  Lemma wanted_spec g q0 P0 : GInv g q0 P0 -> good_graph g -> forall q e, wanted g q e <-> tree_entry g q e.
  Proof.
    intros I Hg q e.
    assert (NODE : forall i, 0 < i < size g -> exists n, getn g i = Some n /\ pkg_at g (node_path g i) (pk_resolved (n_pkg n))).
    { intros i Hi. destruct (proj1 (getn_lt g i) ltac:(lia)) as [n Hn]. exists n. split; [auto|]. exists i, n.
      split; [eapply installed_all; eauto; lia|]. split; [lia | auto]. }
    assert (BACK : forall names r, pkg_at g names r -> exists i, 0 < i < size g /\ names = node_path g i /\ forall f b, In (f, b) (contents r) -> In (f, b) (package_files contents g i)).
    { intros names r (i & n & Hi & Hne & Hn & <-). destruct (installed_path _ _ _ _ _ _ I _ _ Hi) as [Hs ->]. exists i. split; [lia|]. split; [auto|].
      rewrite (package_files_at g i n Hn). auto. }
    split.
    - intros [H|(-> & x & p & e' & Hx & Hp & Ha)].
      + apply hitem in H. destruct H as [[-> ->]|(i & f & Hi & -> & Hf)]; [constructor|]. destruct (NODE i Hi) as (n & Hn & Hat).
        destruct Hf as [[-> ->]|(b & -> & Hb)].
        * rewrite app_nil_r. eapply te_dir; eauto; [|apply prefix_refl]. apply disk_nil; [eapply node_names; eauto; lia | eapply node_ne; eauto; lia].
        * rewrite (package_files_at g i n Hn) in Hb. eapply te_file; eauto.
      + assert (H : exists x, In x (hinsts g) /\ In (p, e') (items x)) by eauto. destruct Ha as ([r Hr] & Hne & Hq).
        apply hitem in H. destruct H as [[-> ->]|(i & f & Hi & -> & Hf)].
        * destruct q as [|a q]; [congruence|]. injection Hr as <- Hr. symmetry in Hr. apply app_eq_nil in Hr. destruct Hr as [-> _]. constructor.
        * destruct (NODE i Hi) as (n & Hn & Hat).
          assert (Hpre : prefix q (disk (node_path g i) ++ f)) by (exists r; auto).
          destruct (prefix_linear _ _ _ Hpre (prefix_app (disk (node_path g i)) f)) as [H|[z ->]]; [eapply te_dir; eauto|].
          rewrite <- app_assoc in Hr. apply app_inv_head in Hr. subst f.
          destruct Hf as [[E ->]|(b & -> & Hb)].
          -- apply app_eq_nil in E. destruct E as [-> ->]. rewrite !app_nil_r in *. congruence.
          -- rewrite (package_files_at g i n Hn) in Hb. eapply te_sub; eauto; [apply prefix_app|]. intros E. apply Hne. now rewrite <- E.
    - intros [|names r q' Hat Hne Hp|names r f b Hat Hb|names r f b f' Hat Hb Hp Hne].
      + left. apply hitem. auto.
      + destruct (BACK _ _ Hat) as (i & Hi & -> & _). destruct (path_eq_dec q' (disk (node_path g i))) as [->|Hn].
        * left. apply hitem. right. exists i, []. rewrite app_nil_r. split; [auto|]. split; [auto|]. left. auto.
        * right. split; [auto|]. assert (H : exists x, In x (hinsts g) /\ In (disk (node_path g i) ++ [], EDir) (items x)).
          { apply hitem. right. exists i, []. split; [auto|]. split; [auto|]. left. auto. }
          destruct H as (x & Hx & Hin). rewrite app_nil_r in Hin. exists x, (disk (node_path g i)), EDir. split; [auto|]. split; [auto|]. split; auto.
      + destruct (BACK _ _ Hat) as (i & Hi & -> & Hc). left. apply hitem. right. exists i, f. split; [auto|]. split; [auto|]. right. eauto.
      + destruct (BACK _ _ Hat) as (i & Hi & -> & Hc). right. split; [auto|].
        assert (H : exists x, In x (hinsts g) /\ In (disk (node_path g i) ++ f, EFile b) (items x)).
        { apply hitem. right. exists i, f. split; [auto|]. split; [auto|]. right. eauto. }
        destruct H as (x & Hx & Hin). exists x, (disk (node_path g i) ++ f), (EFile b). split; [auto|]. split; [auto|].
        destruct Hp as [z ->]. split; [exists z; now rewrite app_assoc|]. split.
        * intros E. apply app_inv_head in E. contradiction.
        * destruct (disk_nil (node_path g i)) as [H _]; [eapply node_names; eauto; lia | eapply node_ne; eauto; lia|].
          intros E. apply app_eq_nil in E. tauto.
  Qed.
  Lemma entry_under g q e : tree_entry g q e -> good_graph g -> (forall i x, child_of g i x <> Some 0) -> prefix ["node_modules"] q.
  Proof.
    intros H Hg Hr. assert (D : forall names r, pkg_at g names r -> exists t, disk names = "node_modules" :: t).
    { intros names r (i & n & Hi & Hne & _). destruct names as [|x t]; [|eexists; reflexivity]. exfalso. apply Hne. now apply (installed_zero g Hr i []). }
    destruct H as [|names r q' Hat Hne Hp|names r f b Hat Hb|names r f b f' Hat Hb Hp Hne].
    - apply prefix_refl.
    - destruct (D _ _ Hat) as [t E]. rewrite E in Hp. destruct Hp as [z Hz]. destruct q' as [|a q']; [congruence|]. injection Hz as <- _. exists q'. reflexivity.
    - destruct (D _ _ Hat) as [t ->]. exists (t ++ f). reflexivity.
    - destruct (D _ _ Hat) as [t ->]. exists (t ++ f'). reflexivity.
  Qed.

  Lemma store_not_entry g e : good_graph g -> ~ tree_entry g ["node_modules"; store_name] e.
  Proof.
    intros Hg H.
    assert (A : forall names r z, pkg_at g names r -> disk names <> "node_modules" :: store_name :: z).
    { intros names r z (i & n & Hi & Hne & _) E. pose proof (installed_good g Hg _ _ Hi) as G. destruct names as [|x t]; [discriminate|]. inversion G as [|? ? Gx Gt]; subst.
      rewrite disk_cons in E. injection E as E. destruct Gx as [Hx|(s & m & -> & Hs & Hf & Hm)].
      - rewrite comps_plain in E by now apply plain_no_slash. injection E as -> _. destruct Hx as (c & s & E & _ & Hd & _). injection E as <- _. congruence.
      - rewrite comps_scoped in E by (auto; now apply plain_no_slash). discriminate. }
    assert (B : forall names r f, pkg_at g names r -> ["node_modules"; store_name] <> disk names ++ f).
    { intros names r f Hat E. pose proof Hat as (i & n & Hi & Hne & _). pose proof (installed_good g Hg _ _ Hi) as G.
      destruct (disk_last names) as (pre & m & Ed & Hm); [auto| intros ->; apply Hne; eapply installed_inj; [exact Hi | constructor]|].
      rewrite Ed in E. injection E as E. destruct pre as [|y pre]; injection E as <- E.
      - destruct Hm as (c & s & E' & _ & Hd & _). injection E' as <- _. congruence.
      - eapply (A names r); [exact Hat | exact Ed]. }
    inversion H as [|names r q' Hat Hne [z Hz] E1 E2|names r f b Hat Hb E1 E2|names r f b f' Hat Hb Hp Hne E1 E2]; subst.
    - exact (A names r z Hat Hz).
    - exact (B names r f Hat (eq_sym E1)).
    - exact (B names r f' Hat (eq_sym E1)).
  Qed.
  Lemma nm_entry g e : good_graph g -> tree_entry g ["node_modules"] e -> e = EDir.
  Proof.
    intros Hg H. inversion H as [|names r q' Hat Hne [z Hz] E1 E2|names r f b Hat Hb E1 E2|names r f b f' Hat Hb Hp Hne E1 E2]; auto. exfalso.
    destruct Hat as (i & n & Hi & Hne & _). pose proof (installed_good g Hg _ _ Hi) as G.
    destruct (disk_last names) as (pre & m & Ed & Hm); [auto| intros ->; apply Hne; eapply installed_inj; [exact Hi | constructor]|].
    rewrite Ed in E1. injection E1 as E1. destruct pre; discriminate.
  Qed.

  Section Run.
  Variable g : graph.
  Variable q0 : list nat.
  Variable P0 : list dep.
  Hypothesis I : GInv g q0 P0.
  Hypothesis Hg : good_graph g.
  Variable lock : META.
  (** the paths the statement is about *)
  Variable rel : path -> Prop.
  Hypothesis Hrel : forall q e, tree_entry g q e -> rel q.
  Hypothesis Hrel_nm : forall q, rel q -> prefix ["node_modules"] q.
  Hypothesis Hrel_store : rel ["node_modules"; store_name].
  Notation trusted f m := (trusted (doomed f m g) (hinsts g) rel).
  Definition exact_tree (f : fs) : Prop := forall q e, rel q -> (f q = Some e <-> tree_entry g q e).

  Lemma w_rel q e : wanted g q e -> rel q.
  Proof. intros H. eapply Hrel. eapply wanted_spec; eauto. Qed.
  Let FUN := h_fun contents Hcont rsat canon deliver g q0 P0 I Hg.
  Let MAIN := h_main contents g.
  Let NE := h_ne contents rsat canon deliver g q0 P0 I Hg.
  Let NOCHECK := h_nocheck contents g.
  Let ORD := h_ord contents Hcont rsat canon deliver g q0 P0 I Hg.
  Let LINKS := h_links contents g.
  Let WHOLE f m := h_whole requested gitshow contents rsat canon deliver g q0 P0 I Hg f m.
  Let DEC f m := cond_dec (doomed f m g).

  Lemma run_winv f m w : trusted f m f -> hsteps f m g lock w -> winv META (doomed f m g) (hinsts g) lock rel w.
  Proof.
    intros T S. eapply (winv_steps META (doomed f m g) (wipes f m) (hinsts g) lock rel FUN w_rel MAIN NE NOCHECK ORD (WHOLE f m) LINKS (DEC f m)); [|exact S].
    now apply winv_init.
  Qed.
  Lemma run_exact f m w : trusted f m f -> hsteps f m g lock w -> w_phase _ w = Done -> exact_tree (w_fs _ w) /\ w_meta _ w = Some lock.
  Proof.
    intros T S Hd. destruct (run_winv f m w T S) as [_ _ D]. destruct (D Hd) as [D1 D2]. split; [|auto].
    intros q e Hr. rewrite <- (wanted_spec g q0 P0 I Hg q e). auto.
  Qed.
  Lemma run_can_complete f m l : trusted f m f -> (forall p, f p <> None -> In p l) -> exists w, hsteps f m g lock w /\ w_phase _ w = Done.
  Proof.
    intros T Hl. exact (can_complete META (doomed f m g) (wipes f m) (hinsts g) lock rel FUN w_rel MAIN NE NOCHECK ORD (WHOLE f m) LINKS (DEC f m) f m l T Hl).
  Qed.

  (** without a trusted previous tree *)
  Lemma all_condemned f m q : wipes f m = true -> prefix ["node_modules"] q -> q <> ["node_modules"] -> condemned (doomed f m g) q.
  Proof.
    intros Hw [t ->] Hne. destruct t as [|x t]; [rewrite app_nil_r in Hne; congruence|]. exists ["node_modules"; x]. split; [|exists t; reflexivity].
    unfold HoistedModel.doomed. rewrite Hw. reflexivity.
  Qed.
  Lemma nm_not_condemned f m : ~ condemned (doomed f m g) ["node_modules"].
  Proof.
    intros (d & Hd & [r Hr]). apply doomed_shape in Hd. destruct Hd as (pre & x & -> & _). cbn in Hr. injection Hr as Hr. destruct pre; discriminate.
  Qed.
  Definition nm_ok (f : fs) : Prop := f ["node_modules"] = None \/ f ["node_modules"] = Some EDir.
  Lemma wipe_trusted f m : wipes f m = true -> nm_ok f -> trusted f m f.
  Proof.
    intros Hw Hnm. constructor.
    - intros q e Hr Hk Hq. destruct (path_eq_dec q ["node_modules"]) as [->|Hne]; [|destruct Hk; apply all_condemned; auto].
      apply (wanted_spec g q0 P0 I Hg). destruct Hnm as [H|H]; rewrite H in Hq; [discriminate|]. injection Hq as <-. constructor.
    - intros x d Hx Hd Hk. exfalso. apply Hk. destruct (h_check _ _ _ _ Hx Hd) as (i & Hi & _ & ->).
      destruct (disk_last (node_path g i)) as (pre & y & E & _); [eapply node_names; eauto; lia | eapply node_ne; eauto; lia|].
      apply all_condemned; auto; rewrite E; [eexists; reflexivity | destruct pre; discriminate].
  Qed.

  (** after another tree *)
  Lemma root_no_child : forall i x, child_of g i x <> Some 0.
  Proof.
    intros i x H. destruct (gi_child _ _ _ _ _ _ I _ _ _ H) as (_ & Hp & _). destruct (gi_root _ _ _ _ _ _ I) as [_ Hr]. congruence.
  Qed.
  Lemma installed_one i x : installed_at g i [x] <-> child_of g 0 x = Some i.
  Proof.
    split.
    - intros H. inversion H as [|p path y c H' Hc E0 E]; subst. change [x] with ([] ++ [x]) in E. apply app_inj_tail in E. destruct E as [-> ->].
      inversion H' as [E1 E2|p2 path2 y2 c2 H2 Hc2 E1 E2]; [congruence|]. destruct path2; discriminate.
    - intros H. apply (at_child g 0 []); [constructor | exact H].
  Qed.
  Lemma lookup_top x : plain x -> node_at_path g [x] = child_of g 0 x.
  Proof.
    intros Hx. unfold node_at_path. rewrite nap_plain by auto. destruct (child_of g 0 x) as [c|] eqn:E; [|reflexivity]. cbn.
    destruct c; [destruct (root_no_child _ _ E) | reflexivity].
  Qed.
  Lemma keeps_spec a x : plain x -> keeps a g [x] = true <-> same_entry requested gitshow a g x.
  Proof.
    intros Hx. unfold HoistedModel.keeps. rewrite lookup_top by auto. cbn [join]. split.
    - destruct (aget ueqb x a) as [old|] eqn:Ea; [|discriminate]. destruct (child_of g 0 x) as [i|] eqn:Ei; [|discriminate].
      destruct (node_lnode requested gitshow g i false) as [new| |] eqn:En; try discriminate. intros H. exists old, i, new. rewrite installed_one. auto.
    - intros (old & i & new & -> & Hi & Hn & He). apply installed_one in Hi. now rewrite Hi, Hn.
  Qed.
  Notation unchanged a x := (same_entry requested gitshow a g x).
  Notation no_hidden_change g0 a := (no_hidden_change requested gitshow g0 g a).

  Lemma kept_head f a x t : wipes f (Some a) = false -> plain x -> ~ condemned (doomed f (Some a) g) ("node_modules" :: x :: t) -> unchanged a x.
  Proof.
    intros Hw Hx Hk. apply keeps_spec; [auto|]. destruct (keeps a g [x]) eqn:E; [auto|]. exfalso. apply Hk. exists ["node_modules"; x]. split; [|exists t; reflexivity].
    unfold HoistedModel.doomed. rewrite Hw. unfold HoistedModel.doomed_old. cbn [rev app]. cbn [forallb]. rewrite (plain_special _ Hx), E.
    destruct Hx as (c & s & -> & _ & Hdot & _). unfold meta_name.
    assert (String.eqb (String c s) ".bin" = false) as -> by (apply String.eqb_neq; congruence).
    assert (String.eqb (String c s) ".orogene-meta.kdl" = false) as -> by (apply String.eqb_neq; congruence). reflexivity.
  Qed.
  Lemma kept_names f a x t r : wipes f (Some a) = false -> good_name x -> ~ condemned (doomed f (Some a) g) (disk (x :: t) ++ r) -> plain x -> unchanged a x.
  Proof.
    intros Hw Hx Hk Hp. rewrite disk_cons, comps_plain in Hk by now apply plain_no_slash. cbn [app] in Hk. eapply kept_head; eauto.
  Qed.
  Lemma upgrade_trusted f a g0 : good_graph g0 -> wipes f (Some a) = false ->
    (forall q e, rel q -> (f q = Some e <-> tree_entry g0 q e)) -> no_hidden_change g0 a -> trusted f (Some a) f.
  Proof.
    intros Hg0 Hw Hf Hsame.
    assert (NE0 : forall g' names r, pkg_at g' names r -> names <> []).
    { intros g' names r (i & n & Hi & Hne & _) ->. apply Hne. eapply installed_inj; [exact Hi | constructor]. }
    constructor.
    - intros q e Hr Hk Hq. apply Hf in Hq; [|auto]. apply (wanted_spec g q0 P0 I Hg).
      assert (MOVE : forall names r suf, pkg_at g0 names r -> ~ condemned (doomed f (Some a) g) (disk names ++ suf) -> pkg_at g names r).
      { intros names r suf Hat Hk'. destruct names as [|x t]; [destruct (NE0 _ _ _ Hat eq_refl)|].
        apply Hsame; [|exact Hat]. eapply kept_names; eauto. destruct Hat as (i & n & Hi & _). pose proof (installed_good g0 Hg0 _ _ Hi) as H. now inversion H. }
      destruct Hq as [|names r q' Hat Hne Hp|names r f0 b Hat Hb|names r f0 b f' Hat Hb Hp Hne].
      + constructor.
      + (* a directory on the way to a package *)
        assert (G0 : Forall good_name names) by (destruct Hat as (i & n & Hi & _); apply (installed_good g0 Hg0 _ _ Hi)).
        destruct names as [|x t]; [destruct (NE0 _ _ _ Hat eq_refl)|]. inversion G0 as [|? ? Gx Gt]; subst.
        destruct q' as [|c q']; [congruence|]. rewrite disk_cons in Hp. destruct Hp as [z Hz]. injection Hz as <- Hz.
        destruct q' as [|c q']; [constructor|].
        assert (pkg_at g (x :: t) r); [|eapply te_dir; [eassumption|discriminate|]; rewrite disk_cons; exists z; cbn; now rewrite Hz].
        apply Hsame; [|exact Hat]. intros Hx. rewrite comps_plain in Hz by now apply plain_no_slash. cbn in Hz. injection Hz as <- _. eapply kept_head; eauto.
      + eapply te_file; eauto.
      + eapply te_sub; eauto.
    - intros x d Hx Hd Hk [p e] Ht. destruct (h_check _ _ _ _ Hx Hd) as (i & Hi & -> & ->). apply pfiles_item in Ht. destruct Ht as (f0 & -> & Hf0).
      destruct (proj1 (getn_lt g i) ltac:(lia)) as [n Hn].
      assert (Hat : pkg_at g (node_path g i) (pk_resolved (n_pkg n))) by (exists i, n; split; [eapply installed_all; eauto; lia|]; split; [lia|auto]).
      pose proof (node_names rsat canon deliver g q0 P0 I Hg i ltac:(lia)) as Gn.
      assert (Hat0 : pkg_at g0 (node_path g i) (pk_resolved (n_pkg n))).
      { destruct (node_path g i) as [|y t] eqn:En; [destruct (NE0 _ _ _ Hat eq_refl)|]. apply Hsame; [|exact Hat]. inversion Gn; subst.
        eapply (kept_names f a y t []); eauto. now rewrite app_nil_r. }
      assert (E0 : tree_entry g0 (disk (node_path g i) ++ f0) e /\ rel (disk (node_path g i) ++ f0)).
      { split.
        - destruct Hf0 as [[-> ->]|(b & -> & Hb)].
          + rewrite app_nil_r. eapply te_dir; [exact Hat0| |apply prefix_refl]. apply disk_nil; [auto|]. eapply node_ne; eauto; lia.
          + rewrite (package_files_at g i n Hn) in Hb. eapply te_file; eauto.
        - apply w_rel with (e := e). left. apply hitem. right. eauto. }
      split; cbn [fst snd]; [now apply Hf|]. intros q Hq.
      assert (Wq : wanted g q EDir).
      { right. split; [auto|]. assert (H : exists x, In x (hinsts g) /\ In (disk (node_path g i) ++ f0, e) (items x)) by (apply hitem; right; eauto).
        destruct H as (x & Hx' & Hin). exists x, (disk (node_path g i) ++ f0), e. auto. }
      apply Hf; [eapply w_rel; eauto|].
      destruct Hq as ([r Hr] & Hne & Hq0).
      assert (Hpre : prefix q (disk (node_path g i) ++ f0)) by (exists r; auto).
      destruct (prefix_linear _ _ _ Hpre (prefix_app (disk (node_path g i)) f0)) as [H|[z ->]]; [eapply te_dir; eauto|].
      rewrite <- app_assoc in Hr. apply app_inv_head in Hr. subst f0. destruct Hf0 as [[E ->]|(b & -> & Hb)].
      + apply app_eq_nil in E. destruct E as [-> ->]. rewrite !app_nil_r in *. congruence.
      + rewrite (package_files_at g i n Hn) in Hb. eapply te_sub; eauto; [apply prefix_app|]. intros E. apply Hne. now rewrite <- E.
  Qed.

  (** ** what pruning does *)
  Lemma condemned_top f a x t : wipes f (Some a) = false -> plain x -> condemned (doomed f (Some a) g) ("node_modules" :: x :: t) <-> ~ unchanged a x.
  Proof.
    intros Hw Hx. split.
    - intros (d & Hd & [r Hr]) Hk. pose proof (doomed_shape _ _ _ _ _ _ Hd) as (pre & y & -> & Hs). cbn in Hr. injection Hr as Hr.
      destruct pre as [|z pre].
      + injection Hr as <- _. unfold HoistedModel.doomed in Hd. rewrite Hw in Hd. unfold HoistedModel.doomed_old in Hd. cbn [rev app] in Hd.
        apply keeps_spec in Hk; [|auto]. rewrite Hk, !andb_true_iff in Hd. destruct Hd as [_ [_ Hd]]. discriminate.
      + injection Hr as <- _. cbn in Hs. rewrite (plain_special _ Hx) in Hs. discriminate.
    - intros H. destruct (cond_dec (doomed f (Some a) g) ("node_modules" :: x :: t)) as [C|C]; [auto|]. exfalso. apply H. eapply kept_head; eauto.
  Qed.
  Lemma condemned_stray f a x t : wipes f (Some a) = false -> special x = false -> x <> ".bin" -> x <> meta_name -> child_of g 0 (ufold x) = None ->
    condemned (doomed f (Some a) g) ("node_modules" :: x :: t).
  Proof.
    intros Hw Hx Hb Hm Hc. exists ["node_modules"; x]. split; [|exists t; reflexivity].
    unfold HoistedModel.doomed. rewrite Hw. unfold HoistedModel.doomed_old. cbn [rev app forallb]. rewrite Hx.
    apply String.eqb_neq in Hb, Hm. rewrite Hb, Hm. unfold HoistedModel.keeps. cbn [join].
    assert (node_at_path g [x] = None) as ->.
    { unfold node_at_path. cbn [nap]. destruct (_ || _ || _); [reflexivity|]. cbn [negb]. apply orb_false_iff in Hx. destruct Hx as [_ ->]. now rewrite Hc. }
    destruct (aget ueqb x a); reflexivity.
  Qed.
  Lemma scoped_kept f a s t : wipes f (Some a) = false -> ~ In "node_modules" t -> ~ condemned (doomed f (Some a) g) ("node_modules" :: String "@" s :: t).
  Proof.
    intros Hw Ht (d & Hd & [r Hr]). unfold HoistedModel.doomed in Hd. rewrite Hw in Hd. unfold HoistedModel.doomed_old in Hd.
    destruct d as [|nm sub]; [discriminate|]. apply andb_true_iff in Hd. destruct Hd as [_ Hd]. cbn in Hr. injection Hr as <- Hr.
    destruct (rev sub) as [|x rc] eqn:E; [discriminate|]. rewrite !andb_true_iff in Hd. destruct Hd as (((((_ & H1) & H2) & _) & _) & _).
    assert (Es : sub = rev rc ++ [x]) by (rewrite <- (rev_involutive sub), E; reflexivity). subst sub.
    destruct rc as [|y rc]; cbn in Hr.
    - injection Hr as <- _. cbn in H2. discriminate.
    - apply String.eqb_eq in H1. subst y. cbn in Hr. rewrite <- !app_assoc in Hr. destruct (rev rc) as [|z l]; cbn in Hr; [discriminate|].
      injection Hr as _ Hr. apply Ht. rewrite Hr. apply in_app_iff. right. cbn. auto.
  Qed.
  Lemma prune_result f m w : hsteps f m g lock w -> w_phase _ w = Extracting (hinsts g) [] ->
    (forall q, ~ condemned (doomed f m g) q -> w_fs _ w q = f q) /\ (forall q, condemned (doomed f m g) q -> w_fs _ w q = None).
  Proof.
    intros S Hp. eapply pruned_steps; eauto. discriminate.
  Qed.
  (** nothing outside node_modules changes *)
  Lemma run_outside f m w : trusted f m f -> hsteps f m g lock w -> forall q, ~ prefix ["node_modules"] q -> w_fs _ w q = f q.
  Proof.
    intros T S q Hq.
    apply (frame_steps META (doomed f m g) (wipes f m) (hinsts g) lock rel FUN w_rel MAIN NE NOCHECK ORD (WHOLE f m) LINKS (DEC f m) (mkW META f m Pruning) w);
      [now apply winv_init | exact S | |].
    - intros (d & Hd & Hp). apply doomed_shape in Hd. destruct Hd as (pre & x & -> & _). apply Hq. eapply prefix_trans; [|exact Hp]. eexists; reflexivity.
    - intros e He. apply Hq, Hrel_nm. eapply w_rel; eauto.
  Qed.

  (** ** crashes *)
  Definition fine (f : fs) (m : option META) : Prop := nm_ok f /\ (m = None \/ (f ["node_modules"; store_name] = None /\ trusted f m f)).
  Lemma store_not_wanted e : ~ wanted g ["node_modules"; store_name] e.
  Proof. intros H. apply (wanted_spec g q0 P0 I Hg) in H. eapply store_not_entry; eauto. Qed.
  Lemma fine_trusted f m : fine f m -> trusted f m f.
  Proof. intros [Hnm [-> |[_ T]]]; [apply wipe_trusted; auto|exact T]. Qed.
  Lemma fine_run f m w : fine f m -> hsteps f m g lock w -> fine (w_fs _ w) (w_meta _ w).
  Proof.
    intros F S. pose proof (fine_trusted _ _ F) as T. pose proof (run_winv f m w T S) as W. pose proof W as [T' _ _].
    assert (NM : nm_ok (w_fs _ w)).
    { unfold nm_ok. destruct (w_fs _ w ["node_modules"]) as [e|] eqn:E; [|auto]. right. destruct T' as [T1 _].
      assert (We : wanted g ["node_modules"] e) by (apply T1; auto; [apply Hrel with (e := EDir); constructor | apply nm_not_condemned]).
      f_equal. eapply FUN; [exact We|]. apply (wanted_spec g q0 P0 I Hg). constructor. }
    split; [exact NM|].
    destruct (crash_cases META (doomed f m g) (wipes f m) (hinsts g) lock rel FUN w_rel MAIN NE NOCHECK ORD (WHOLE f m) LINKS (DEC f m) f m w T S) as [E|[[Hw E]|E]].
    - destruct F as [_ [-> |[Hst _]]]; [left; exact E|]. rewrite E. destruct m as [a|]; [right|now left].
      assert (Hst' : w_fs _ w ["node_modules"; store_name] = None).
      {         assert (Hfr : w_fs _ w ["node_modules"; store_name] = None \/ w_fs _ w ["node_modules"; store_name] = f ["node_modules"; store_name]); [|rewrite Hst in Hfr; tauto].
        destruct (DEC f (Some a) ["node_modules"; store_name]) as [C|C].
        - destruct (w_fs _ w ["node_modules"; store_name]) as [e|] eqn:Ee; [|auto]. exfalso.
          assert (G : forall w', wsteps META (doomed f (Some a) g) (wipes f (Some a)) (hinsts g) lock (mkW META f (Some a) Pruning) w' -> w_fs _ w' ["node_modules"; store_name] = None).
          { intros w' S'. pose proof (store_not_wanted) as NW. clear -S' Hst NW FUN MAIN NE NOCHECK ORD LINKS WHOLE DEC T I Hg Hrel Hcont.
            induction S' as [|w1 w2 S1 IH Hs]; [exact Hst|].
            pose proof (run_winv f (Some a) w1 T S1) as [_ X _].
            assert (PUT : forall p e h, h ["node_modules"; store_name] = None -> (exists x, In x (hinsts g) /\ In (p, e) (items x)) -> forall e', put p e' h ["node_modules"; store_name] = None).
            { intros p e h Hh (x & Hx & Hp) e'. rewrite put_same; [exact Hh| |].
              - intros E. subst p. eapply (NW e). left. eauto.
              - intros Ha. eapply (NW EDir). right. split; [auto|]. exists x, p, e. auto. }
            destruct Hs as [f1 m1 p Hc Hp Hl|f1 m1 Hw1|f1 m1 Hc Hm|f1 m1 i next live|f1 m1 next l1 l2 p e rest Hok|f1 m1 next l1 l2 p b rest b' Hok|f1 m1 m' live Hl|f1 m1 live Hl];
              cbn [w_fs w_meta w_phase] in *; auto.
            - destruct (path_eq_dec ["node_modules"; store_name] p); auto.
            - destruct (X _ _ eq_refl) as [[_ (st & Hst' & _ & V3) _] _]. destruct (V3 (p, e)) as (x & H1 & H2); [apply in_concat_mid; right; left; now left|].
              eapply PUT; eauto. exists x. split; [rewrite Hst'; apply in_app_iff; auto | eauto].
            - destruct (X _ _ eq_refl) as [[_ (st & Hst' & _ & V3) _] _]. destruct (V3 (p, EFile b)) as (x & H1 & H2); [apply in_concat_mid; right; left; now left|].
              eapply (PUT p (EFile b)); eauto. exists x. split; [rewrite Hst'; apply in_app_iff; auto | eauto]. }
          rewrite (G w S) in Ee. discriminate.
        - right. eapply (frame_steps META (doomed f (Some a) g) (wipes f (Some a)) (hinsts g) lock rel FUN w_rel MAIN NE NOCHECK ORD (WHOLE f (Some a)) LINKS (DEC f (Some a))
            (mkW META f (Some a) Pruning) w); [now apply winv_init | exact S | exact C | exact store_not_wanted]. }
      split; [auto|].
        assert (EW : wipes (w_fs _ w) (Some a) = wipes f (Some a)) by (unfold wipes; now rewrite Hst, Hst').
        assert (ED : doomed (w_fs _ w) (Some a) g = doomed f (Some a) g) by (unfold HoistedModel.doomed; now rewrite EW).
        rewrite ED. exact T'.
    - left. exact E.
    - right. split.
      + destruct (w_fs _ w ["node_modules"; store_name]) as [e|] eqn:Ee; [|auto]. apply E in Ee; [|exact Hrel_store]. destruct (store_not_wanted _ Ee).
      + apply exact_trusted; [exact w_rel | exact E].
  Qed.
  (** any number of interrupted runs *)
  Inductive attempts (f : fs) (m : option META) : fs -> option META -> Prop :=
  | no_attempt : attempts f m f m
  | attempt f1 m1 w : attempts f m f1 m1 -> hsteps f1 m1 g lock w -> attempts f m (w_fs _ w) (w_meta _ w).
  Lemma fine_attempts f m f1 m1 : fine f m -> attempts f m f1 m1 -> fine f1 m1.
  Proof. intros F. induction 1 as [|f1 m1 w H IH S]; [auto|]. eapply fine_run; eauto. Qed.
  End Run.
End Thms.
