(** * Extraction from an intact cache succeeds, proofs *)
From Verif Require Import Base Types StdPath Fs TarModel TarStream TarProofs TarContents TarWarm TarTotal.
Open Scope string_scope.
Open Scope list_scope.

Lemma mkdirp_first d l s : (forall q, q <> [] -> prefix q l -> s_file s q = None) -> l <> [] ->
  (forall q, s_dir s q = true -> prefix d q -> q = d) -> prefix d l ->
  exists created' s', mkdirp (map CNormal l) [] s = (Ok created', s') /\ below_known d created' s'.
Proof.
  intros F Nl Hd Pl. pose proof (mkdirp_plain l [] s ltac:(intros k q [])) as MK. unfold mkdirp in *. cbn [known existsb] in *.
  assert (E : match map CNormal l with [] => true | _ => false end = false) by (destruct l; [contradiction|reflexivity]). rewrite E in *.
  unfold create_dir_all in *. destruct (create_all_total l [] s) as [s' Es]; [intros q H1 H2 _; now apply F|]. cbn [map] in Es. rewrite Es in *. exists (prefixes (map CNormal l) ++ []), s'. split; [reflexivity|].
  destruct MK as (G & M1 & M2 & M3 & M4). split.
  - apply in_or_app. left. apply in_prefixes_plain. exists d. auto.
  - intros q Hq Pq. apply in_or_app. left. apply in_prefixes_plain. apply M4 in Hq. destruct Hq as [Hq|[H1 H2]]; [|exists q; auto]. rewrite (Hd q Hq Pq). exists d. auto.
Qed.
Section Warm.
  Variable xxh : string -> string.
  Variables linkable reflinkable : bool.
  Notation efc := (extract_from_cache xxh linkable reflinkable).
  Variables (d : path) (s1 : st) (bins : list string) (x : xmode) (all : list item).
  Notation n1 := (List.length (s_inodes s1)).
  Hypothesis Nd : d <> [].
  Hypothesis Htame : Forall (fun it => tame (fst it)) all.
  Hypothesis Hdistinct : NoDup (map (fun it => names (fst it)) all).
  Hypothesis Hvac : forall q, prefix d q -> s_file s1 q = None /\ (s_dir s1 q = true -> q = d).
  Hypothesis Hnofile : forall q, q <> [] -> prefix q d -> s_file s1 q = None.
  Hypothesis Hwfb : forall h i, s_blob s1 h = Some i -> i < n1.
  Hypothesis Hnames : forall it, In it all -> names (fst it) <> [].
  Hypothesis Hprefix : forall a b, In a all -> In b all -> prefix (names (fst a)) (names (fst b)) -> a = b.
  Hypothesis Hblobs : forall it, In it all -> exists v, blob xxh (i_data it) s1 = Some v.
  Lemma Hfresh it : In it all -> s_file s1 (tgt d it) = None.
  Proof. intros _. apply (Hvac _ (prefix_app _ _)). Qed.
  Lemma tgt_ne' it : tgt d it <> [].
  Proof. intros E. unfold tgt in E. apply app_eq_nil in E. tauto. Qed.
  Lemma rl_tgt it : In it all -> removelast (tgt d it) = d ++ removelast (names (fst it)).
  Proof. intros H. unfold tgt. apply removelast_app. now apply Hnames. Qed.
  Lemma below_tgt (q : path) it y : In it all -> In y all -> prefix (tgt d y) (removelast (tgt d it)) -> False.
  Proof.
    intros Hi Hy P. assert (y = it).
    { apply Hprefix; auto. pose proof (prefix_trans _ _ _ P (prefix_removelast _)) as [r E]. exists r. unfold tgt in E. rewrite <- app_assoc in E. now apply app_inv_head in E. }
    subst y. apply prefix_len in P. pose proof (app_removelast_last "" (tgt_ne' it)) as E. apply (f_equal (@List.length string)) in E. rewrite app_length in E. cbn in E. lia.
  Qed.
  Lemma warm_files_total : forall files done created, done ++ files = all -> forall s,
    KW xxh d s1 bins x done s -> created_ok created s -> wdirs d s1 done s -> (created = [] /\ done = [] \/ below_known d created s) ->
    exists s', warm_files xxh linkable reflinkable d bins files x created s = (Ok tt, s').
  Proof.
    induction files as [|it t IH]; intros done created Eall s HK HC HD HB; cbn [warm_files]; [unfold ret; eauto|].
    destruct it as [e [h m]] eqn:Eit. change e with (fst (e, (h, m))). rewrite <- Eit. replace h with (i_data it) by (subst it; reflexivity).
    replace (if existsb (String.eqb (fst it)) bins then Nat.lor m m111 else m) with (wmode bins it) by (subst it; reflexivity). rewrite <- Eit in Eall. clear e h m Eit.
    assert (Hin : In it all) by (rewrite <- Eall; apply in_or_app; right; now left).
    assert (Hd : incl done all) by (intros y Hy; rewrite <- Eall; apply in_or_app; now left).
    assert (Tm : tame (fst it)) by (rewrite Forall_forall in Htame; now apply Htame).
    rewrite (at_dir_plain d _ Tm), sparent_plain, resolve_plain. fold (tgt d it).
    assert (NF : forall q, q <> [] -> prefix q (removelast (tgt d it)) -> s_file s q = None).
    { intros q Nq Pq. destruct (in_dec path_eq_dec q (map (tgt d) done)) as [H|H].
      - apply in_map_iff in H. destruct H as (y & <- & Hy). exfalso. apply (below_tgt (tgt d y) it y); auto.
      - rewrite (w_file _ _ _ _ _ _ _ HK q H). rewrite rl_tgt in Pq by exact Hin. destruct (prefix_linear q d (d ++ removelast (names (fst it))) Pq (prefix_app _ _)) as [P|P]; [now apply Hnofile|]. now apply (Hvac q P). }
    assert (Pl : prefix d (removelast (tgt d it))) by (rewrite rl_tgt by exact Hin; apply prefix_app).
    assert (Nl : removelast (tgt d it) <> []) by (intros E; rewrite E in Pl; apply prefix_nil in Pl; contradiction).
    unfold bind at 1. change (mkdirp_op ?a ?b s) with (mkdirp a b s).
    assert (MK0 : exists c' s', mkdirp (map CNormal (removelast (tgt d it))) created s = (Ok c', s') /\ below_known d c' s').
    { destruct HB as [[-> ->]|HB].
      - apply mkdirp_first; auto. intros q Hq Pq. apply HD in Hq. destruct Hq as [Hq|(_ & y & [] & _)]. now apply (Hvac q Pq).
      - pose proof (mkdirp_total d _ created s Nd HC HB Pl NF) as H. destruct (mkdirp _ created s) as [[c'|er|] s']; [eauto|contradiction|contradiction]. }
    pose proof (mkdirp_plain (removelast (tgt d it)) created s HC) as MK. destruct MK0 as (created' & s2 & E & HB2). rewrite E in *.
    destruct MK as (G & C1 & C2 & C3 & C4). apply (KW_grow _ _ _ _ _ done s s2) in HK; [|exact G].
    assert (HD2 : wdirs d s1 (done ++ [it]) s2).
    { intros q. rewrite C4, (HD q). split.
      - intros [[H|(H1 & y & H2 & H3)]|[H1 H2]]; [auto| |].
        + right. split; [exact H1|]. exists y. split; [apply in_or_app; now left|exact H3].
        + right. split; [exact H1|]. exists it. split; [apply in_or_app; right; now left|exact H2].
      - intros [H|(H1 & y & H2 & H3)]; [auto|]. apply in_app_or in H2. destruct H2 as [H2|[<-|[]]]; [|auto]. left. right. split; [exact H1|]. now exists y. }
    assert (Hd2 : incl (done ++ [it]) all) by (intros y Hy; apply in_app_or in Hy; destruct Hy as [Hy|[<-|[]]]; auto).
    assert (Bl : exists i c m, blob xxh (i_data it) s2 = Some (i, c, m)).
    { destruct (Hblobs it Hin) as [[[i c] m] B]. apply blob_spec in B. destruct B as (B1 & B2 & B3). destruct (w_old _ _ _ _ _ _ _ HK i c m B2) as (m' & N & _). exists i, c, m'. apply blob_spec. rewrite (w_blob _ _ _ _ _ _ _ HK). auto. }
    destruct Bl as (i & c & m & Bl).
    assert (F : s_file s2 (tgt d it) = None).
    { rewrite (w_file _ _ _ _ _ _ _ HK); [now apply Hfresh|]. intros H. apply in_map_iff in H. destruct H as (y & Ey & Hy). unfold tgt in Ey. apply app_inv_head in Ey. apply (nodup_new all Hdistinct done it t Eall). rewrite <- Ey. apply in_map_iff. now exists y. }
    destruct (efc_total xxh linkable reflinkable (i_data it) (tgt d it) x (wmode bins it) s2 i c m Bl) as [s3 E3].
    - destruct (s_dir s2 (tgt d it)) eqn:D; [|reflexivity]. exfalso. apply HD2 in D. destruct D as [D|(_ & y & Hy & D)].
      + apply (Hvac _ (prefix_app _ _)) in D. unfold tgt in D. rewrite <- (app_nil_r d) in D at 2. apply app_inv_head in D. now apply (Hnames it).
      + apply (below_tgt (tgt d it) y it); auto.
    - apply parent_ok_dir; [apply tgt_ne'|]. apply HD2. right. split; [exact Nl|]. exists it. split; [apply in_or_app; right; now left|apply prefix_refl].
    - rewrite F. discriminate.
    - unfold bind at 1. rewrite E3. pose proof (efc_cases xxh linkable reflinkable (i_data it) (tgt d it) x (wmode bins it) s2) as EC. rewrite E3 in EC.
      destruct (KW_place xxh d s1 bins x all Hdistinct Hfresh Hwfb done it t s2 s3 Eall HK EC) as [HK3 ED3].
      apply (IH (done ++ [it]) created'); [rewrite <- app_assoc; exact Eall|exact HK3|unfold created_ok; now rewrite ED3|unfold wdirs in *; now rewrite ED3|right]. destruct HB2 as [Q1 Q2]. split; [exact Q1|]. now rewrite ED3.
  Qed.
End Warm.
Theorem warm_total xxh linkable reflinkable d s1 idx files x : d <> [] ->
  Forall (fun it : item => tame (fst it)) files -> NoDup (map (fun it => names (fst it)) files) ->
  (forall q, prefix d q -> s_file s1 q = None /\ (s_dir s1 q = true -> q = d)) -> (forall q, q <> [] -> prefix q d -> s_file s1 q = None) ->
  (forall h i, s_blob s1 h = Some i -> i < List.length (s_inodes s1)) -> (forall it, In it files -> names (fst it) <> []) ->
  (forall a b, In a files -> In b files -> prefix (names (fst a)) (names (fst b)) -> a = b) ->
  (forall it, In it files -> exists v, blob xxh (i_data it) s1 = Some v) ->
  exists s', warm xxh linkable reflinkable d idx files x s1 = (Ok tt, s').
Proof.
  intros H0 H1 H2 H3 H4 H5 H6 H7 H8. unfold warm.
  apply (warm_files_total xxh linkable reflinkable d s1 (x_bins idx) (warm_mode idx x) files H0 H1 H2 H3 H4 H5 H6 H7 H8 files [] [] eq_refl s1).
  - constructor; auto; try contradiction. intros j c m Hj. exists m. auto.
  - intros k q [].
  - intros q. split; [auto|]. intros [H|(_ & it & [] & _)]. exact H.
  - now left.
Qed.
