(** * Linking the bins of a hoisted tree *)
From Verif Require Import Base Types ResolverModel ResolverProofs ResolverRun ResolverSpec ResolverThms LockfileModel LockfileGraph
  PathLookup Fs FsRun HoistedModel HoistedSpec HoistedProofs HoistedThms StdPath BinModel BinProofs IsolatedModel IsolatedSpec IsolatedProofs
  BinLinkModel BinLinkProofs BinLinkSafe.
From Coq Require Import Lia Permutation.
Open Scope string_scope.
Open Scope list_scope.
Set Implicit Arguments.

(** the .bin directory beside the packages below [names] *)
Definition bindir (names : list string) : path := disk names ++ ["node_modules"; ".bin"].
Lemma head_comps x t u : good_name x -> comps x ++ t = ".bin" :: u -> False.
Proof.
  intros [Hp|(s & m & -> & Hs & Hf & Hm)] E.
  - rewrite comps_plain in E by now apply plain_no_slash. injection E as -> _. destruct Hp as (c & r & E & _ & N & _). injection E as <- _. congruence.
  - rewrite comps_scoped in E by (auto; now apply plain_no_slash). discriminate E.
Qed.
Lemma bindir_not_in a : forall b r, Forall good_name a -> Forall good_name b -> (forall t, r <> "node_modules" :: t) -> ~ prefix (bindir a) (disk b ++ r).
Proof.
  unfold bindir. induction a as [|x a IH]; intros b r Ha Hb Hr [z E].
  - cbn in E. destruct b as [|y b]; [cbn in E; destruct (Hr _ E)|]. rewrite disk_cons in E. injection E as E. rewrite <- app_assoc in E. eapply head_comps; [exact (Forall_inv Hb) | exact E].
  - destruct b as [|y b]; [cbn in E; destruct (Hr _ E)|]. rewrite !disk_cons in E. cbn [app] in E. injection E as E. rewrite <- !app_assoc in E. symmetry in E.
    apply comps_inj in E; [|exact (Forall_inv Ha) | exact (Forall_inv Hb)]. destruct E as [<- E].
    apply (IH b r); [exact (Forall_inv_tail Ha) | exact (Forall_inv_tail Hb) | auto |]. exists z. rewrite <- !app_assoc. auto.
Qed.
Lemma bindir_inj a : forall b, Forall good_name a -> Forall good_name b -> prefix (bindir a) (bindir b) -> a = b.
Proof.
  unfold bindir. induction a as [|x a IH]; intros b Ha Hb [z E].
  - destruct b as [|y b]; [auto|]. rewrite disk_cons in E. cbn [app disk flat_map] in E. injection E as E. rewrite <- app_assoc in E. destruct (@head_comps y _ _ (Forall_inv Hb) E).
  - destruct b as [|y b].
    + rewrite disk_cons in E. cbn [app disk flat_map] in E. injection E as E. rewrite <- !app_assoc in E. symmetry in E. destruct (@head_comps x _ _ (Forall_inv Ha) E).
    + rewrite !disk_cons in E. cbn [app] in E. injection E as E. rewrite <- !app_assoc in E. symmetry in E.
      apply comps_inj in E; [|exact (Forall_inv Ha) | exact (Forall_inv Hb)]. destruct E as [<- E].
      f_equal. apply IH; [exact (Forall_inv_tail Ha) | exact (Forall_inv_tail Hb) |]. exists z. rewrite <- !app_assoc. auto.
Qed.
Lemma in_not_bindir b : forall a r, Forall good_name a -> Forall good_name b -> r <> [] -> (forall t, r <> "node_modules" :: t) -> ~ prefix (disk b ++ r) (bindir a).
Proof.
  unfold bindir. induction b as [|y b IH]; intros a r Ha Hb Nr Hr [z E].
  - cbn [disk flat_map app] in E. destruct r as [|k r]; [congruence|]. destruct a as [|x a]; [|rewrite disk_cons in E]; cbn in E; injection E as <- _; now apply (Hr r).
  - destruct a as [|x a].
    + rewrite disk_cons in E. cbn [app disk flat_map] in E. injection E as E. rewrite <- !app_assoc in E. symmetry in E. destruct (@head_comps y _ _ (Forall_inv Hb) E).
    + rewrite !disk_cons in E. cbn [app] in E. injection E as E. rewrite <- !app_assoc in E. 
      apply comps_inj in E; [|exact (Forall_inv Ha) | exact (Forall_inv Hb)]. destruct E as [<- E].
      apply (IH a r); [exact (Forall_inv_tail Ha) | exact (Forall_inv_tail Hb) | auto | auto |]. exists z. rewrite <- !app_assoc. auto.
Qed.
Lemma walk_from_normal (l : list string) : forall st, walk_from st (map CNormal l) = Some (rev st ++ l).
Proof. induction l as [|x l IH]; intros st; cbn; [now rewrite app_nil_r|]. rewrite IH. cbn. now rewrite <- app_assoc. Qed.

(** bins as BuildManifest gives them when no path climbs out of the package or into its node_modules *)
Definition fine_bins (binpaths : resolution -> list (string * path)) : Prop := forall r n p, In (n, p) (binpaths r) ->
  p <> [] /\ (forall t, p <> "node_modules" :: t) /\ ~ In ".." p.

Section Tree.
  Variable binpaths : resolution -> list (string * path).
  Hypothesis Hbins : fine_bins binpaths.
  Definition bins_of (r : resolution) : list (string * list comp) := map (fun b => (fst b, map CNormal (snd b))) (binpaths r).
  Variable scripted : resolution -> bool.
  Variable contents : resolution -> list (path * string).
  Hypothesis Hcont : plain_contents contents.
  Variable rsat : range -> version -> bool.
  Variable canon : string -> option string.
  Variable deliver : pspec -> outcome -> Prop.
  Variable g : graph.
  Variable q0 : list nat.
  Variable P0 : list dep.
  Hypothesis I : GInv rsat canon deliver g q0 P0.
  Hypothesis Hg : good_graph g.
  Notation tree_entry := (tree_entry contents g).

  (** the job for bin [n] at [p] of the package [pre ++ [x]] *)
  Definition the_job (pre : list string) (x n : string) (p : path) : job := mkJob (bindir pre) n (disk (pre ++ [x]) ++ p).
  Lemma pkg_index names r : pkg_at g names r -> exists i n, 0 < i < size g /\ node_path g i = names /\ getn g i = Some n /\ pk_resolved (n_pkg n) = r.
  Proof. intros (i & n & Hi & Hne & Hn & <-). destruct (installed_path _ _ _ _ _ _ I _ _ Hi) as [Hs ->]. exists i, n. repeat split; auto. lia. Qed.
  Lemma index_pkg i n : 0 < i < size g -> getn g i = Some n -> pkg_at g (node_path g i) (pk_resolved (n_pkg n)).
  Proof. intros Hi Hn. exists i, n. split; [eapply installed_all; eauto; lia|]. split; [lia | auto]. Qed.
  Lemma split_path i : 0 < i < size g -> exists pre x, node_path g i = pre ++ [x] /\ Forall good_name pre /\ good_name x.
  Proof.
    intros Hi. pose proof (@node_ne _ _ _ _ _ _ I i ltac:(lia) ltac:(lia)) as N. destruct (exists_last N) as (pre & x & E). exists pre, x. split; auto.
    pose proof (@node_names _ _ _ _ _ _ I Hg i ltac:(lia)) as F. rewrite E in F. apply Forall_app in F. destruct F as [F1 F2]. split; auto. exact (Forall_inv F2).
  Qed.
  Lemma jobs_in i j : 0 < i < size g -> In j (pkg_jobs bins_of g i) <->
    exists pre x r n p, node_path g i = pre ++ [x] /\ pkg_at g (pre ++ [x]) r /\ In (n, p) (binpaths r) /\ j = the_job pre x n p.
  Proof.
    intros Hi. destruct (proj1 (getn_lt g i) ltac:(lia)) as [nd Hn]. destruct (split_path Hi) as (pre & x & E & Fp & Fx).
    pose proof (index_pkg Hi Hn) as At. rewrite E in At. unfold pkg_jobs, pkg_bins. rewrite Hn, E. unfold bins_of. rewrite map_map, in_map_iff. cbn [fst snd].
    assert (Eq : forall n p, mkJob (hoisted_bin_dir (disk (pre ++ [x]))) n (source_path (disk (pre ++ [x])) (n, map CNormal p)) = the_job pre x n p).
    { intros n p. unfold the_job, bindir, source_path. rewrite hoisted_bin_dir_good by auto. cbn [bin_link snd]. rewrite <- map_app, walk_from_normal. reflexivity. }
    split.
    - intros ([n p] & <- & Hin). exists pre, x, (pk_resolved (n_pkg nd)), n, p. cbn [fst snd]. rewrite <- Eq. auto.
    - intros (pre' & x' & r & n & p & E' & At' & Hin & ->). apply app_inj_tail in E'. destruct E' as [<- <-].
      destruct (pkg_index At') as (i' & n' & Hi' & Ei' & Hn' & <-). assert (i' = i) by (apply (@node_inj _ _ _ _ _ _ I i' i); [lia | lia | congruence]). subst i'.
      rewrite Hn in Hn'. injection Hn' as <-. exists (n, p). cbn [fst snd]. rewrite Eq. auto.
  Qed.
  Variables (f1 : fs) (l : list nat).
  Hypothesis Hl : Permutation l (pending bins_of scripted g f1).
  Definition alljobs : list job := List.concat (map (pkg_jobs bins_of g) l).
  Lemma pending_in i : In i l -> 0 < i < size g /\ f1 (disk (node_path g i)) = None.
  Proof.
    intros H. eapply Permutation_in in H; [|exact Hl]. unfold pending in H. apply filter_In in H. destruct H as [H1 H2]. apply in_seq in H1.
    apply andb_true_iff in H2. destruct H2 as [H2 _]. unfold exists_ in H2. destruct (f1 _); [discriminate|]. split; auto. lia.
  Qed.
  Lemma in_pending i n b : 0 < i < size g -> f1 (disk (node_path g i)) = None -> getn g i = Some n -> In b (binpaths (pk_resolved (n_pkg n))) -> In i l.
  Proof.
    intros Hi Hf Hn Hb. eapply Permutation_in; [symmetry; exact Hl|]. unfold pending. apply filter_In. split; [apply in_seq; lia|].
    unfold exists_. rewrite Hf, Hn. cbn. unfold pkg_bins. rewrite Hn. unfold bins_of. destruct (binpaths _); [destruct Hb|]. cbn. apply orb_true_r.
  Qed.
  Lemma alljobs_in j : In j alljobs <-> exists pre x r n p, pkg_at g (pre ++ [x]) r /\ f1 (disk (pre ++ [x])) = None /\ In (n, p) (binpaths r) /\ j = the_job pre x n p.
  Proof.
    unfold alljobs. rewrite in_concat. split.
    - intros (js & Hjs & Hj). apply in_map_iff in Hjs. destruct Hjs as (i & <- & Hi). destruct (pending_in _ Hi) as [Hs Hf].
      apply jobs_in in Hj; auto. destruct Hj as (pre & x & r & n & p & E & H). exists pre, x, r, n, p. rewrite E in Hf. tauto.
    - intros (pre & x & r & n & p & At & Hf & Hin & ->). destruct (pkg_index At) as (i & nd & Hi & Ei & Hn & Er). subst r.
      exists (pkg_jobs bins_of g i). split; [apply in_map; eapply in_pending; eauto; now rewrite Ei|]. apply jobs_in; auto. exists pre, x, (pk_resolved (n_pkg nd)), n, p. auto.
  Qed.
  Lemma alljobs_wait j : In j alljobs <-> exists js, In js (map (pkg_jobs bins_of g) l) /\ In j js.
  Proof. unfold alljobs. rewrite in_concat. reflexivity. Qed.
  Lemma pkg_good names r : pkg_at g names r -> Forall good_name names.
  Proof. intros (i & n & Hi & _). eapply installed_good; eauto. Qed.
  Lemma pre_good pre x r : pkg_at g (pre ++ [x]) r -> Forall good_name pre.
  Proof. intros H. apply pkg_good in H. apply Forall_app in H. tauto. Qed.
  Lemma bindir_ne pre : bindir pre <> [].
  Proof. unfold bindir. destruct (disk pre); discriminate. Qed.
  Lemma s_ne j : In j alljobs -> j_dir j <> [].
  Proof. intros H. apply alljobs_in in H. destruct H as (pre & x & r & n & p & _ & _ & _ & ->). apply bindir_ne. Qed.
  Lemma s_dd j j' : In j alljobs -> In j' alljobs -> prefix (j_dir j) (j_dir j') -> j_dir j = j_dir j'.
  Proof.
    intros H H'. apply alljobs_in in H, H'. destruct H as (pre & x & r & n & p & At & _ & _ & ->), H' as (pre' & x' & r' & n' & p' & At' & _ & _ & ->).
    cbn. intros P. f_equal. eapply bindir_inj; eauto using pre_good.
  Qed.
  Lemma s_df j j' : In j alljobs -> In j' alljobs -> ~ prefix (j_dir j) (j_from j').
  Proof.
    intros H H'. apply alljobs_in in H, H'. destruct H as (pre & x & r & n & p & At & _ & _ & ->), H' as (pre' & x' & r' & n' & p' & At' & _ & B' & ->).
    cbn. apply bindir_not_in; [eapply pre_good; eauto | eapply pkg_good; eauto | exact (proj1 (proj2 (Hbins _ _ _ B')))].
  Qed.
  Lemma s_fd j j' : In j alljobs -> In j' alljobs -> ~ prefix (j_from j') (j_dir j).
  Proof.
    intros H H'. apply alljobs_in in H, H'. destruct H as (pre & x & r & n & p & At & _ & _ & ->), H' as (pre' & x' & r' & n' & p' & At' & _ & B' & ->).
    cbn. destruct (Hbins _ _ _ B') as (N1 & N2 & _). apply in_not_bindir; [eapply pre_good; eauto | eapply pkg_good; eauto | auto | auto].
  Qed.
  Lemma unbin_from f j : In j alljobs -> unbin f (j_from j) = f (j_from j).
  Proof.
    intros H. apply alljobs_in in H. destruct H as (pre & x & r & n & p & At & _ & B & ->). unfold unbin, remove_tree.
    destruct (prefixb _ _) eqn:E; auto. apply prefixb_spec in E. exfalso. apply (@bindir_not_in [] (pre ++ [x]) p); [constructor | eapply pkg_good; eauto | exact (proj1 (proj2 (Hbins _ _ _ B))) | exact E].
  Qed.
  Lemma good_no_dots x : good_name x -> ~ In ".." (comps x).
  Proof.
    intros [Hp|(s & m & -> & Hs & Hf & Hm)].
    - rewrite comps_plain by now apply plain_no_slash. intros [E|[]]. subst x. destruct Hp as (c & t & E & _ & N & _). injection E as <- _. congruence.
    - rewrite comps_scoped by (auto; now apply plain_no_slash). intros [E|[E|[]]]; [discriminate|]. subst m. destruct Hm as (c & t & E & _ & N & _). injection E as <- _. congruence.
  Qed.
  Lemma disk_no_dots names : Forall good_name names -> ~ In ".." (disk names).
  Proof.
    induction 1 as [|x t Hx Ht IH]; [easy|]. rewrite disk_cons. intros [E|E]; [discriminate|]. apply in_app_or in E. destruct E as [E|E]; [eapply good_no_dots; eauto | auto].
  Qed.
  Lemma job_leads f pre x r n p : pkg_at g (pre ++ [x]) r -> In (n, p) (binpaths r) -> f (j_to (the_job pre x n p)) = Some (ELink (j_text (the_job pre x n p))) ->
    leads f (disk pre ++ ["node_modules"; ".bin"; n]) (disk (pre ++ [x]) ++ p).
  Proof.
    intros At B E. assert (Ep : j_to (the_job pre x n p) = disk pre ++ ["node_modules"; ".bin"; n]) by (unfold j_to; cbn; unfold bindir; now rewrite <- app_assoc).
    rewrite Ep in E. eexists. split; [exact E|]. rewrite <- Ep, to_parent. cbn [j_dir the_job j_text]. unfold j_text. cbn [j_from j_dir the_job].
    apply (walk_diff _ _ []). intros D. apply in_app_or in D. destruct D as [D|D]; [eapply disk_no_dots; [eapply pkg_good; eauto | exact D]|]. exact (proj2 (proj2 (Hbins _ _ _ B)) D).
  Qed.
  Lemma job_to_inj pre x n p pre' x' n' p' : Forall good_name pre -> Forall good_name pre' -> j_to (the_job pre x n p) = j_to (the_job pre' x' n' p') -> pre = pre' /\ n = n'.
  Proof.
    intros H H' E. unfold j_to in E. cbn in E. apply app_inj_tail in E. destruct E as [E ->]. split; auto. apply bindir_inj; auto. rewrite E. apply prefix_refl.
  Qed.

  (** every newly extracted package gets its bins, or loses them to another newly extracted package beside it *)
  Theorem new_linked conc f c w : lsteps conc (link_start bins_of g l f c) w -> over w ->
    forall pre x r n p, pkg_at g (pre ++ [x]) r -> f1 (disk (pre ++ [x])) = None -> In (n, p) (binpaths r) -> f (disk (pre ++ [x]) ++ p) <> None ->
    exists x' r' p', pkg_at g (pre ++ [x']) r' /\ f1 (disk (pre ++ [x'])) = None /\ In (n, p') (binpaths r') /\ f (disk (pre ++ [x']) ++ p') <> None
      /\ leads (l_fs w) (disk pre ++ ["node_modules"; ".bin"; n]) (disk (pre ++ [x']) ++ p').
  Proof.
    intros S O pre x r n p At Hf B Hr. set (j := the_job pre x n p).
    assert (Hj : In j alljobs) by (apply alljobs_in; exists pre, x, r, n, p; auto).
    destruct (@all_linked alljobs (unbin f) s_ne s_dd s_df s_fd conc (map (pkg_jobs bins_of g) l) c alljobs_wait w S O j Hj) as (j' & Hj' & Et & Rj & El).
    { unfold real. now rewrite unbin_from. }
    pose proof Hj' as Hj''. apply alljobs_in in Hj'. destruct Hj' as (pre' & x' & r' & n' & p' & At' & Hf' & B' & ->).
    destruct (@job_to_inj pre' x' n' p' pre x n p) as [-> ->]; [eapply pre_good; eauto | eapply pre_good; eauto | exact Et |].
    exists x', r', p'. repeat split; auto.
    - unfold real in Rj. rewrite unbin_from in Rj by auto. exact Rj.
    - eapply job_leads; eauto.
  Qed.

  (** a file system that holds the tree *)
  Definition holds_tree (f : fs) : Prop := forall q e, prefix ["node_modules"] q -> (f q = Some e <-> tree_entry q e).
  Lemma entry_not_bin pre q e : Forall good_name pre -> prefix (bindir pre) q -> ~ tree_entry q e.
  Proof.
    intros Hp P T.
    destruct T as [|names r q' At Ne Pq|names r fl b At Hb|names r fl b f' At Hb Pf Nf].
    - unfold bindir in P. destruct P as [z E]. apply (f_equal (@List.length _)) in E. rewrite !app_length in E. cbn in E. lia.
    - apply (@bindir_not_in pre names []); auto; [eapply pkg_good; eauto | discriminate|]. rewrite app_nil_r. eapply prefix_trans; eauto.
    - apply (@bindir_not_in pre names fl); auto; [eapply pkg_good; eauto|]. destruct (Hcont _ _ _ Hb) as (_ & N & _). exact N.
    - apply (@bindir_not_in pre names f'); auto; [eapply pkg_good; eauto|]. intros t ->. destruct Pf as [z ->]. destruct (Hcont _ _ _ Hb) as (_ & N & _). exact (N _ eq_refl).
  Qed.
  Lemma unbin_tree f : holds_tree f -> forall q, prefix ["node_modules"] q -> unbin f q = f q.
  Proof.
    intros H q P. unfold unbin, remove_tree. destruct (prefixb _ _) eqn:E; auto. apply prefixb_spec in E. destruct (f q) as [e|] eqn:F; auto.
    apply H in F; auto. destruct (@entry_not_bin [] q e); auto.
  Qed.
  Lemma s_up f : holds_tree f -> forall j q, In j alljobs -> prefix q (j_dir j) -> q <> j_dir j -> q <> [] -> unbin f q = Some EDir.
  Proof.
    intros H j q Hj P N Nq. apply alljobs_in in Hj. destruct Hj as (pre & x & r & n & p & At & _ & _ & ->). cbn in P, N.
    assert (P' : prefix q (disk (pre ++ [x]))).
    { unfold bindir in P, N. change ["node_modules"; ".bin"] with (["node_modules"] ++ [".bin"]) in P, N. rewrite app_assoc in P, N. apply prefix_snoc in P. destruct P as [P|P]; [|contradiction].
      rewrite disk_app. eapply prefix_trans; [exact P|]. exists (comps x ++ []). unfold disk at 2. cbn [flat_map]. rewrite <- !app_assoc. reflexivity. }
    assert (Pn : prefix ["node_modules"] q).
    { destruct q as [|k q]; [congruence|]. destruct P' as [z E]. destruct pre as [|y pre]; [|rewrite <- app_comm_cons in E]; cbn [app] in E; rewrite disk_cons in E; injection E as <- _; exists q; reflexivity. }
    rewrite unbin_tree by auto. apply H; auto. eapply te_dir; eauto.
  Qed.
  Lemma s_fresh f : holds_tree f -> forall j, In j alljobs -> unbin f (j_dir j) = None.
  Proof.
    intros H j Hj. apply alljobs_in in Hj. destruct Hj as (pre & x & r & n & p & At & _ & _ & ->). cbn.
    assert (Pn : prefix ["node_modules"] (bindir pre)) by (unfold bindir; destruct pre as [|y pre]; [exists [".bin"]; reflexivity | rewrite disk_cons; eexists; reflexivity]).
    rewrite unbin_tree by auto. destruct (f (bindir pre)) as [e|] eqn:E; auto. apply H in E; auto. destruct (@entry_not_bin pre (bindir pre) e); auto; [eapply pre_good; eauto | apply prefix_refl].
  Qed.
  Lemma s_cache j : In j alljobs -> ~ In (j_dir j) first_cache.
  Proof.
    intros Hj. apply alljobs_in in Hj. destruct Hj as (pre & x & r & n & p & At & _ & _ & ->). cbn. unfold bindir. intros [E|[E|[]]].
    - destruct (disk pre); discriminate.
    - apply (f_equal (@List.length _)) in E. rewrite app_length in E. cbn in E. lia.
  Qed.
  (** two packages to link that share a .bin directory *)
  Lemma jobs_dir i j : 0 < i < size g -> In j (pkg_jobs bins_of g i) -> exists x, node_path g i = fst (removelast (node_path g i), x) ++ [x] /\ j_dir j = bindir (removelast (node_path g i)).
  Proof.
    intros Hi Hj. apply jobs_in in Hj; auto. destruct Hj as (pre & x & r & n & p & E & _ & _ & ->). exists x. cbn. rewrite E, removelast_last. auto.
  Qed.
  Theorem links_safe conc f : holds_tree f ->
    (conc = 1 \/ forall pre x x' r r', pkg_at g (pre ++ [x]) r -> pkg_at g (pre ++ [x']) r' -> f1 (disk (pre ++ [x])) = None -> f1 (disk (pre ++ [x'])) = None ->
       binpaths r <> [] -> binpaths r' <> [] -> x = x') ->
    forall w, lsteps conc (link_start bins_of g l f first_cache) w -> ~ fails w /\ exists w', lsteps conc w w' /\ over w'.
  Proof.
    intros H Hex.
    assert (NF : forall w, lsteps conc (link_start bins_of g l f first_cache) w -> ~ fails w).
    { intros w S. eapply (@never_fails_run alljobs (unbin f) s_ne s_dd s_df s_fd (s_up H) (s_fresh H) conc _ first_cache alljobs_wait s_cache); [|exact S].
      destruct Hex as [Hc|Hex]; [auto|]. right.
      assert (Nd : NoDup l) by (eapply Permutation_NoDup; [symmetry; exact Hl|]; apply NoDup_filter, seq_NoDup).
      assert (Inc : forall i, In i l -> 0 < i < size g /\ f1 (disk (node_path g i)) = None) by (intros; now apply pending_in).
      clear S. generalize dependent l. intros l0 _ Nd Inc. induction Nd as [|i l0 Ni Nd IH]; cbn; auto. split; [|apply IH; intros; apply Inc; now right].
      rewrite Forall_forall. intros js Hjs. apply in_map_iff in Hjs. destruct Hjs as (k & <- & Hk). intros (j & j' & Hj & Hj' & E).
      destruct (Inc i) as [Hi Fi]; [now left|]. destruct (Inc k) as [Hk' Fk]; [now right|].
      apply jobs_in in Hj; auto. apply jobs_in in Hj'; auto.
      destruct Hj as (pre & x & r & n & p & E1 & At & B & ->), Hj' as (pre' & x' & r' & n' & p' & E1' & At' & B' & ->). cbn in E.
      assert (pre = pre') by (apply bindir_inj; [eapply pre_good; eauto | eapply pre_good; eauto | rewrite E; apply prefix_refl]). subst pre'.
      assert (x = x').
      { eapply (Hex pre x x' r r'); eauto; try (now rewrite <- ?E1, <- ?E1'); [intros Z; rewrite Z in B; destruct B | intros Z; rewrite Z in B'; destruct B']. }
      subst x'. apply Ni. replace i with k; auto. apply (@node_inj _ _ _ _ _ _ I k i); [lia | lia | congruence]. }
    intros w S. split; [auto|]. eapply completes; eauto.
  Qed.
  Theorem links_supp conc f c w q : lsteps conc (link_start bins_of g l f c) w -> l_fs w q <> None -> f q <> None \/ In q (flat_map (fun j => ancestors (j_to j)) alljobs).
  Proof.
    intros S H. destruct (@supp_steps alljobs (unbin f) s_ne s_dd s_df s_fd conc (map (pkg_jobs bins_of g) l) c alljobs_wait w q S H) as [X|X]; auto.
    left. intros Z. apply X. unfold unbin, remove_tree. destruct (prefixb _ _); auto.
  Qed.
  (** what is not in a .bin directory is not touched *)
  Theorem links_outside conc f c w : holds_tree f -> lsteps conc (link_start bins_of g l f c) w ->
    forall q, q <> [] -> (forall pre, ~ prefix (bindir pre) q) -> l_fs w q = f q.
  Proof.
    intros H S q Nq N.
    pose proof (@linv_steps alljobs (unbin f) s_ne s_dd s_df s_fd conc (map (pkg_jobs bins_of g) l) c alljobs_wait w S) as V.
    assert (U : unbin f q = f q).
    { unfold unbin, remove_tree. destruct (prefixb _ _) eqn:E; auto. apply prefixb_spec in E. destruct (N []). exact E. }
    destruct (existsb (fun j => prefixb q (j_dir j)) alljobs) eqn:E.
    - apply existsb_exists in E. destruct E as (j & Hj & P). apply prefixb_spec in P.
      destruct (v_up V _ Hj P) as [Z|[Z1 Z2]]; [congruence|].
      rewrite (s_up H _ Hj P) in Z1; [discriminate| |exact Nq].
      intros Z. apply alljobs_in in Hj. destruct Hj as (pre & x & r & n & p & _ & _ & _ & ->). apply (N pre). rewrite Z. apply prefix_refl.
    - rewrite <- U. apply (v_out V).
      + intros j Hj P. assert (X : existsb (fun j => prefixb q (j_dir j)) alljobs = true) by (apply existsb_exists; exists j; split; auto; now apply prefixb_spec). congruence.
      + intros j Hj _ P. pose proof Hj as Hj2. apply alljobs_in in Hj. destruct Hj as (pre & x & r & n & p & _ & _ & _ & ->). apply (N pre). exact (prefix_trans _ _ _ (dir_to (the_job pre x n p)) P).
  Qed.
End Tree.
