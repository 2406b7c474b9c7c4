(** * When extraction succeeds, proofs *)
From Verif Require Import Base Types StdPath Fs TarModel TarStream TarProofs TarContents.
Open Scope string_scope.
Open Scope list_scope.

Section Total.
  Variable xxh : string -> string.
  Variables linkable reflinkable : bool.
  Notation efc := (extract_from_cache xxh linkable reflinkable).
  Lemma copy_total h p s i c m : blob xxh h s = Some (i, c, m) -> s_dir s p = false -> parent_ok s p = true -> exists s', copy xxh h p s = (Ok tt, s').
  Proof. intros B D P. unfold copy. rewrite B, D. destruct (s_file s p); [eauto|]. rewrite P. cbn. eauto. Qed.
  Lemma efc_total h p x mode s i c m : blob xxh h s = Some (i, c, m) -> s_dir s p = false -> parent_ok s p = true ->
    (forall j, s_file s p = Some j -> j < List.length (s_inodes s)) -> exists s', efc h p x mode s = (Ok tt, s').
  Proof.
    intros B D P F. rewrite efc_bind. unfold bind. pose proof (try_some xxh linkable reflinkable x h p s i c m B) as T.
    assert (Ex : exists s', try xxh linkable reflinkable x h p s = (Ok tt, s')).
    { destruct (copy_total h p s i c m B D P) as [sc Ec]. unfold try, or_else. destruct x; try (now exists sc).
      - destruct (reflink xxh reflinkable h p s) as [[[]|e|] s'] eqn:R; [eauto| |]; unfold reflink in R; rewrite B in R; destruct (_ && _ && _) in R; cbn in R; try discriminate. injection R as _ <-. eauto.
      - destruct (reflink xxh reflinkable h p s) as [[[]|e|] s'] eqn:R; [eauto| |]; unfold reflink in R; rewrite B in R; destruct (_ && _ && _) in R; cbn in R; try discriminate. injection R as _ <-. eauto.
      - destruct (hard_link xxh linkable h p s) as [[[]|e|] s'] eqn:H; [eauto| |]; unfold hard_link in H; rewrite B in H; destruct (_ && _ && _) in H; cbn in H; try discriminate. injection H as _ <-.
        destruct (reflink xxh reflinkable h p s) as [[[]|e2|] s'] eqn:R; [eauto| |]; unfold reflink in R; rewrite B in R; destruct (_ && _ && _) in R; cbn in R; try discriminate. injection R as _ <-. eauto.
      - destruct (hard_link xxh linkable h p s) as [[[]|e|] s'] eqn:H; [eauto| |]; unfold hard_link in H; rewrite B in H; destruct (_ && _ && _) in H; cbn in H; try discriminate. injection H as _ <-.
        destruct (reflink xxh reflinkable h p s) as [[[]|e2|] s'] eqn:R; [eauto| |]; unfold reflink in R; rewrite B in R; destruct (_ && _ && _) in R; cbn in R; try discriminate. injection R as _ <-. eauto. }
    destruct Ex as [s' E]. rewrite E in *. destruct T as [_ T]. apply blob_spec in B. destruct B as (B1 & B2 & B3).
    assert (Q : exists i' v, s_file s' p = Some i' /\ nth_error (s_inodes s') i' = Some v).
    { destruct T as [(_ & _ & ->)|[(_ & ->)|(j & Fj & ->)]]; cbn.
      - exists i, (c, m). rewrite upd_eq. auto.
      - eexists _, _. rewrite upd_eq. split; [reflexivity|apply nth_snoc].
      - exists j. eexists. split; [exact Fj|]. apply nth_lset_eq. now apply F. }
    destruct Q as (i' & [c' m'] & Q1 & Q2). rewrite (chmod_after s' p i' c' m' mode Q1 Q2). eauto.
  Qed.
  Lemma parent_ok_dir s p : p <> [] -> s_dir s (removelast p) = true -> parent_ok s p = true.
  Proof. destruct p; [contradiction|auto]. Qed.

  (** making a directory below one known to exist *)
  Lemma create_all_total : forall l k s, (forall q, prefix q (k ++ l) -> q <> k -> prefix k q -> s_file s q = None) -> exists s', create_all_from (map CNormal k) (map CNormal l) s = (Ok tt, s').
  Proof.
    induction l as [|y l IH]; intros k s H; cbn [map create_all_from]; [eauto|]. change [CNormal y] with (map CNormal [y]). rewrite <- map_app, resolve_plain.
    assert (Ny : k ++ [y] <> k) by (intros E; rewrite <- (app_nil_r k) in E at 2; apply app_inv_head in E; discriminate).
    assert (H' : forall s', s_file s' = s_file s -> forall q, prefix q ((k ++ [y]) ++ l) -> q <> k ++ [y] -> prefix (k ++ [y]) q -> s_file s' q = None).
    { intros s' E q H1 H2 H3. rewrite E. apply H; [rewrite <- app_assoc in H1; exact H1| |apply prefix_trans with (k ++ [y]); [apply prefix_app|exact H3]].
      intros ->. destruct H3 as [r H3]. rewrite <- app_assoc in H3. rewrite <- (app_nil_r k) in H3 at 1. apply app_inv_head in H3. discriminate. }
    destruct (s_dir s (k ++ [y])) eqn:D; [apply IH, H'; reflexivity|]. unfold exists_at. rewrite D, H; [|exists l; now rewrite <- app_assoc|exact Ny|apply prefix_app]. cbn [orb is_some]. apply IH, H'. reflexivity.
  Qed.
  Definition below_known (d : path) (created : list spath) (s : st) : Prop :=
    In (map CNormal d) created /\ forall q, s_dir s q = true -> prefix d q -> In (map CNormal q) created.
  Lemma map_normal_inj (a b : path) : map CNormal a = map CNormal b -> a = b.
  Proof. intros H. apply (f_equal resolve) in H. now rewrite !resolve_plain in H. Qed.
  Lemma prefix_len (a b : path) : prefix a b -> List.length a <= List.length b.
  Proof. intros [r ->]. rewrite app_length. lia. Qed.
  Lemma mkdirp_total d l created s : d <> [] -> created_ok created s -> below_known d created s -> prefix d l -> (forall q, q <> [] -> prefix q l -> s_file s q = None) ->
    match mkdirp (map CNormal l) created s with (Ok created', s') => below_known d created' s' | _ => False end.
  Proof.
    intros Nd C [B1 B2] Pl F. pose proof (mkdirp_plain l created s C) as MK.
    assert (Ex : exists c' s', mkdirp (map CNormal l) created s = (Ok c', s')).
    { unfold mkdirp. destruct (known (map CNormal l) created) eqn:K; [eauto|].
      assert (Nl : l <> []) by (intros ->; apply prefix_nil in Pl; contradiction).
      assert (Ne : exists_at s l = false).
      { unfold exists_at. rewrite F by (auto using prefix_refl). destruct (s_dir s l) eqn:D; [|reflexivity]. apply B2 in D; [|exact Pl]. apply known_spec in D. congruence. }
      destruct (match map CNormal l with [] => true | _ => known (sparent (map CNormal l)) created end) eqn:P.
      - assert (Kp : known (sparent (map CNormal l)) created = true) by (destruct l; [contradiction|exact P]). rewrite sparent_plain in Kp. apply known_spec in Kp.
        assert (Nld : l <> d) by (intros ->; apply known_spec in B1; congruence).
        assert (Pd : prefix d (removelast l)).
        { rewrite (app_removelast_last "" (l := l)) in Pl by exact Nl. apply prefix_snoc in Pl. destruct Pl as [Pl|Pl]; [exact Pl|]. rewrite <- app_removelast_last in Pl by exact Nl. congruence. }
        unfold create_dir. rewrite resolve_plain, Ne. rewrite (parent_ok_dir s l Nl); [cbn; eauto|]. apply (C (removelast l)); [exact Kp|apply prefix_refl|]. intros E. rewrite E in Pd. apply prefix_nil in Pd. contradiction.
      - unfold create_dir_all. destruct (create_all_total l [] s) as [s' E]; [intros q H1 H2 _; now apply F|]. cbn [map] in E. rewrite E. eauto. }
    destruct Ex as (c' & s' & E). pose proof E as E'. unfold mkdirp in E. rewrite E' in *. destruct MK as (G & M1 & M2 & M3 & M4). split; [now apply M3|].
    intros q Hq Hd. apply M4 in Hq. destruct Hq as [Hq|[Hq1 Hq2]]; [apply M3; now apply B2|].
    destruct (known (map CNormal l) created) eqn:K.
    { injection E as <- <-. apply known_spec in K. apply B2; [|exact Hd]. apply (C l q); auto. }
    destruct (path_eq_dec q l) as [->|Ql]; [exact M2|].
    destruct (match map CNormal l with [] => true | _ => known (sparent (map CNormal l)) created end) eqn:P.
    - apply M3. apply B2; [|exact Hd]. destruct l as [|a l]; [apply prefix_nil in Hq2; contradiction|]. cbn [map] in P. change (known (sparent (map CNormal (a :: l))) created = true) in P. rewrite sparent_plain in P. apply known_spec in P.
      apply (C _ q P); [|exact Hq1]. rewrite (app_removelast_last "" (l := a :: l)) in Hq2 by discriminate. apply prefix_snoc in Hq2. destruct Hq2 as [H|H]; [exact H|]. rewrite <- app_removelast_last in H by discriminate. contradiction.
    - destruct (create_dir_all (map CNormal l) s) as [[u|e|] s2]; [|discriminate|discriminate]. injection E as <- <-. apply in_or_app. left. apply in_prefixes_plain. exists q. auto.
  Qed.

  (** ** from the tarball *)
  Variable blob_mode : nat.
  Variable manifest : string -> option (bool * list string).
  Variables (d : path) (s1 : st) (all : list item).
  Notation n1 := (List.length (s_inodes s1)).
  Hypothesis Nd : d <> [].
  Hypothesis Htame : Forall (fun it => tame (fst it)) all.
  Hypothesis Hdistinct : NoDup (map (fun it => names (fst it)) all).
  Hypothesis Hhash : forall a b, In a all -> In b all -> xxh (i_data a) = xxh (i_data b) -> i_data a = i_data b.
  Hypothesis Hwf : forall it i, In it all -> s_file s1 (tgt d it) = Some i -> i < n1.
  Hypothesis Hshare : forall a b i, In a all -> In b all -> s_file s1 (tgt d a) = Some i -> s_file s1 (tgt d b) = Some i -> i_data a = i_data b.
  (** no path of the package is empty or lies below another *)
  Hypothesis Hnames : forall it, In it all -> names (fst it) <> [].
  Hypothesis Hprefix : forall a b, In a all -> In b all -> prefix (names (fst a)) (names (fst b)) -> a = b.
  (** the destination: no directory below it, no file above it, files below it only where the package has files *)
  Hypothesis Hnodir : forall q, s_dir s1 q = true -> prefix d q -> q = d.
  Hypothesis Hnofile : forall q, q <> [] -> prefix q d -> s_file s1 q = None.
  Hypothesis Hfiles : forall q i, prefix d q -> s_file s1 q = Some i -> exists it, In it all /\ q = tgt d it.
  Notation okB := (okB xxh manifest d s1 all).
  Definition tinv (l : loop) (s : st) : Prop := below_known d (l_created l) s.

  Lemma tgt_ne it : In it all -> tgt d it <> [].
  Proof. intros H E. unfold tgt in E. apply app_eq_nil in E. tauto. Qed.
  Lemma removelast_tgt it : In it all -> removelast (tgt d it) = d ++ removelast (names (fst it)).
  Proof. intros H. unfold tgt. apply removelast_app. now apply Hnames. Qed.
  Lemma proper_prefix (q : path) it : In it all -> prefix q (removelast (tgt d it)) -> q <> tgt d it /\ prefix q (tgt d it).
  Proof.
    intros H P. split; [|apply prefix_trans with (1 := P), prefix_removelast]. intros ->. apply prefix_len in P. pose proof (app_removelast_last "" (tgt_ne it H)) as E. apply (f_equal (@List.length string)) in E. rewrite app_length in E. cbn in E. lia.
  Qed.
  Lemma no_file_above it q done s : In it all -> incl done all -> K xxh d s1 all done None s -> q <> [] -> prefix q (removelast (tgt d it)) -> s_file s q = None.
  Proof.
    intros Hin Hd HK Nq P. destruct (proper_prefix q it Hin P) as [P1 P2].
    assert (NT : forall y, In y all -> q <> tgt d y).
    { intros y Hy ->. assert (y = it); [|subst; contradiction]. apply Hprefix; auto. unfold tgt in P2. destruct P2 as [r E]. exists r. rewrite <- app_assoc in E. now apply app_inv_head in E. }
    rewrite (k_file _ _ _ _ _ _ _ HK).
    - destruct (s_file s1 q) eqn:F; [|reflexivity]. destruct (prefix_linear q d (tgt d it) P2 (prefix_app _ _)) as [L|L]; [rewrite Hnofile in F by auto; discriminate|].
      destruct (Hfiles q n L F) as (y & Hy & ->). exfalso. now apply (NT y).
    - intros H. apply in_map_iff in H. destruct H as (y & <- & Hy). apply (NT y); auto.
  Qed.
  Lemma tgt_not_dir it done s : In it all -> incl done all -> dirs_of d s1 done s -> s_dir s (tgt d it) = false.
  Proof.
    intros Hin Hd HD. destruct (s_dir s (tgt d it)) eqn:D; [|reflexivity]. exfalso. apply HD in D. destruct D as [D|[_ [D|(y & Hy & D)]]].
    - apply Hnodir in D; [|apply prefix_app]. unfold tgt in D. rewrite <- (app_nil_r d) in D at 2. apply app_inv_head in D. now apply (Hnames it).
    - apply prefix_len in D. unfold tgt in D. rewrite app_length in D. pose proof (Hnames it Hin). destruct (names (fst it)); [contradiction|cbn in D; lia].
    - destruct (proper_prefix _ y (Hd y Hy) D) as [P1 P2]. assert (it = y); [|subst; contradiction]. apply Hprefix; auto. unfold tgt in P2. destruct P2 as [r E]. exists r. rewrite <- app_assoc in E. now apply app_inv_head in E.
  Qed.
  Lemma tgt_parent it done s : In it done -> incl done all -> dirs_of d s1 done s -> parent_ok s (tgt d it) = true.
  Proof.
    intros Hi Hd HD. apply parent_ok_dir; [apply tgt_ne; auto|]. apply HD. right. split; [rewrite removelast_tgt by auto; intros E; apply app_eq_nil in E; tauto|]. right. exists it. split; [exact Hi|apply prefix_refl].
  Qed.
  Lemma K_inode done s it j : In it done -> K xxh d s1 all done None s -> s_file s (tgt d it) = Some j -> j < List.length (s_inodes s).
  Proof. intros Hi HK F. destruct (k_done _ _ _ _ _ _ _ HK it Hi ltac:(discriminate)) as (i & m & C1 & C2 & _). assert (i = j) by congruence. subst i. apply nth_error_Some. rewrite C2. discriminate. Qed.
  Lemma recopy_total done x : incl done all -> forall todo, incl todo done -> forall s, K xxh d s1 all done None s -> dirs_of d s1 done s ->
    exists s', recopy xxh linkable reflinkable d (map (idx_of xxh) todo) x s = (Ok tt, s') /\ s_dir s' = s_dir s.
  Proof.
    intros Hd. induction todo as [|it t IH]; intros Ht s HK HD; cbn [map recopy]; [unfold ret; eauto|]. unfold idx_of at 1.
    assert (Hit : In it done) by (apply Ht; now left). assert (Hin : In it all) by auto. assert (Tm : tame (fst it)) by (rewrite Forall_forall in Htame; now apply Htame).
    rewrite (at_dir_plain d (fst it) Tm), resolve_plain. fold (tgt d it). unfold bind at 1.
    destruct (k_done _ _ _ _ _ _ _ HK it Hit ltac:(discriminate)) as (i & m & C1 & C2 & _). unfold remove_file. rewrite C1.
    set (s2 := set_file (tgt d it) None s). pose proof (K_remove _ _ _ _ _ it s Hd Hit HK) as HK2. fold s2 in HK2.
    pose proof (k_blob _ _ _ _ _ _ _ HK it Hit ltac:(discriminate)) as HB. pose proof HB as (ib & a & mb & D1 & D2 & D3 & D4 & D5).
    assert (B : blob xxh (xxh (i_data it)) s2 = Some (ib, i_data a, mb)) by (apply blob_spec; auto).
    destruct (efc_total (xxh (i_data it)) (tgt d it) x (i_mode it) s2 _ _ _ B) as [s3 E3].
    { exact (tgt_not_dir it done s Hin Hd HD). }
    { exact (tgt_parent it done s Hit Hd HD). }
    { cbn. intros j. rewrite upd_eq. discriminate. }
    unfold bind at 1. pose proof (efc_cases xxh linkable reflinkable (xxh (i_data it)) (tgt d it) x (i_mode it) s2) as EC. rewrite E3 in EC. rewrite E3.
    destruct (K_place xxh d s1 all Hdistinct Hhash Hwf Hshare done it x (i_mode it) s2 s3 Hd Hit HK2 EC HB) as [HK3 E4].
    assert (ED : s_dir s3 = s_dir s) by exact E4. destruct (IH ltac:(intros y Hy; apply Ht; now right) s3 HK3 ltac:(unfold dirs_of in *; now rewrite ED)) as (s' & E5 & E6).
    exists s'. split; [exact E5|congruence].
  Qed.
  Lemma entry_total e l done rest c : e_regular e = true -> e_data e = Some c ->
    let it := (strip_one (e_path e), (c, entry_mode e)) in
    done ++ it :: rest = all -> (fst it = "package.json" -> manifest (i_data it) <> None) ->
    forall s, okB l done s -> tinv l s ->
    match extract_entry xxh linkable reflinkable blob_mode manifest d true e l s with (Ok l', s') => tinv l' s' | _ => False end.
  Proof.
    intros R Ec it Eall Hm s HB HT. pose proof HB as (HK & HC & HD & HX & _). unfold extract_entry. rewrite R, Ec. change (strip_one (e_path e)) with (fst it). change (entry_mode e) with (i_mode it). change c with (i_data it).
    clearbody it. clear R Ec c.
    assert (Hin : In it all) by (rewrite <- Eall; apply in_or_app; right; now left).
    assert (Hincl : incl (done ++ [it]) all) by (rewrite <- Eall; intros y Hy; apply in_app_or in Hy; apply in_or_app; destruct Hy as [Hy|[<-|[]]]; [now left|right; now left]).
    assert (Hincl0 : incl done all) by (intros y Hy; apply Hincl; apply in_or_app; now left).
    assert (Hit : In it (done ++ [it])) by (apply in_or_app; right; now left).
    assert (Tm : tame (fst it)) by (rewrite Forall_forall in Htame; now apply Htame).
    pose proof (nodup_new all Hdistinct done it rest Eall) as Hn.
    assert (Hn2 : ~ In (tgt d it) (map (tgt d) done)).
    { intros H. apply in_map_iff in H. destruct H as (y & Ey & Hy). unfold tgt in Ey. apply app_inv_head in Ey. apply Hn. rewrite <- Ey. apply in_map_iff. now exists y. }
    rewrite (at_dir_plain d _ Tm), sparent_plain, resolve_plain. fold (tgt d it).
    unfold bind at 1. change (mkdirp_op ?a ?b s) with (mkdirp a b s).
    pose proof (mkdirp_plain (removelast (tgt d it)) (l_created l) s HC) as MK.
    assert (PD : prefix d (removelast (tgt d it))) by (rewrite removelast_tgt by exact Hin; apply prefix_app).
    pose proof (mkdirp_total d (removelast (tgt d it)) (l_created l) s Nd HC HT PD (fun q Hq1 Hq2 => no_file_above it q done s Hin Hincl0 HK Hq1 Hq2)) as BK.
    destruct (mkdirp _ (l_created l) s) as [[created|er|] s2]; [|contradiction|contradiction].
    destruct MK as (G & C1 & C2 & C3 & C4).
    assert (HD2 : dirs_of d s1 (done ++ [it]) s2).
    { intros q. rewrite C4, (HD q). split.
      - intros [[H1|[H1 [H2|(y & H2 & H3)]]]|[H1 H2]]; [now left|right; auto| |].
        + right. split; [exact H1|]. right. exists y. split; [apply in_or_app; now left|exact H3].
        + right. split; [exact H1|]. right. exists it. auto.
      - intros [H1|[H1 [H2|(y & H2 & H3)]]]; [auto|auto|]. apply in_app_or in H2. destruct H2 as [H2|[<-|[]]]; [|auto]. left. right. split; [exact H1|]. right. now exists y. }
    apply (K_grow xxh d s1 all _ _ s s2) in HK; [|exact G]. clear HD C4 C2 C3 G HC HB HT s C1.
    unfold bind at 1. unfold write_blob. cbn [new_inode]. pose proof (K_write xxh blob_mode manifest d s1 all done it s2 Hincl Hn2 HK) as W. cbv zeta in W.
    set (s3 := set_blob (xxh (i_data it)) (Some (List.length (s_inodes s2))) (set_inodes (s_inodes s2 ++ [(i_data it, blob_mode)]) s2)) in *.
    destruct W as [HK3 HB3].
    assert (B : blob xxh (xxh (i_data it)) s3 = Some (List.length (s_inodes s2), i_data it, blob_mode)).
    { apply blob_spec. cbn. unfold supd. rewrite String.eqb_refl, nth_snoc. auto. }
    destruct (efc_total (xxh (i_data it)) (tgt d it) (l_mode l) (i_mode it) s3 _ _ _ B) as [s4 E4].
    { exact (tgt_not_dir it (done ++ [it]) s2 Hin Hincl HD2). }
    { exact (tgt_parent it (done ++ [it]) s2 Hit Hincl HD2). }
    { intros j Fj. change (s_file s2 (tgt d it) = Some j) in Fj. rewrite (k_file _ _ _ _ _ _ _ HK) in Fj by exact Hn2. apply (Hwf it j Hin) in Fj. cbn. rewrite app_length. pose proof (k_len _ _ _ _ _ _ _ HK). lia. }
    unfold bind at 1. pose proof (hoare_efc_K xxh linkable reflinkable d s1 all Hdistinct Hhash Hwf Hshare (done ++ [it]) it (l_mode l) (i_mode it) (s_dir s3) Hincl Hit s3 (conj HK3 (conj eq_refl HB3))) as EF.
    rewrite E4 in EF. rewrite E4. destruct EF as [HK4 HD4].
    assert (BK4 : forall s5, s_dir s5 = s_dir s3 -> below_known d created s5) by (intros s5 E5; unfold below_known; rewrite E5; exact BK).
    destruct (String.eqb_spec (fst it) "package.json") as [Ep|Ep]; [|cbn [ret]; apply (BK4 s4 HD4)].
    unfold bind at 1. unfold read_file. destruct (k_done _ _ _ _ _ _ _ HK4 it Hit ltac:(discriminate)) as (i & m & Q1 & Q2 & _). rewrite Q1, Q2.
    destruct (manifest (i_data it)) as [[sc bins]|] eqn:Mi; [|now apply Hm]. destruct sc; [|cbn [ret]; apply (BK4 s4 HD4)].
    destruct (is_copy (l_mode l)); [cbn [ret]; apply (BK4 s4 HD4)|]. unfold bind. cbn [x_files]. rewrite HX.
    destruct (recopy_total (done ++ [it]) Auto Hincl done (fun y Hy => in_or_app _ _ _ (or_introl Hy)) s4 HK4) as (s5 & E5 & E6); [unfold dirs_of in *; rewrite HD4; exact HD2|].
    rewrite E5. cbn [ret]. apply (BK4 s5). congruence.
  Qed.
  Lemma entries_total : forall es l done, done ++ items es = all -> Forall (fun e => e_data e <> None) es ->
    (forall it, In it all -> fst it = "package.json" -> manifest (i_data it) <> None) -> forall s, okB l done s -> tinv l s ->
    exists l' s', extract_entries xxh linkable reflinkable blob_mode manifest d true es l s = (Ok l', s').
  Proof.
    induction es as [|e es IH]; intros l done E F Hm s HB HT; cbn [extract_entries]; [unfold ret; eauto|]. pose proof (Forall_inv F) as F1. pose proof (Forall_inv_tail F) as F2. cbv beta in F1.
    cbn [items flat_map] in E. unfold bind. destruct (e_data e) as [c|] eqn:D; [|contradiction]. destruct (e_regular e) eqn:R.
    - set (it := (strip_one (e_path e), (c, entry_mode e))) in *.
      assert (Hin : In it all) by (rewrite <- E; apply in_or_app; right; now left).
      pose proof (entry_total e l done (items es) c R D E (Hm it Hin) s HB HT) as ET.
      pose proof (hoare_entry_B xxh linkable reflinkable blob_mode manifest d s1 all Htame Hdistinct Hhash Hwf Hshare e l done (items es) R c D E s HB) as EB.
      destruct (extract_entry _ _ _ _ _ d true e l s) as [[l'|er|] s']; [|contradiction|contradiction].
      apply (IH l' (done ++ [it])); auto. rewrite <- app_assoc. exact E.
    - unfold extract_entry. rewrite R, D. cbn [ret]. now apply (IH l done).
  Qed.
  Lemma bins_total : (forall bins s, K xxh d s1 all all None s -> dirs_of d s1 all s -> Forall (fun b => tame b /\ exists it, In it all /\ names b = names (fst it)) bins -> exists s', mark_bins d bins s = (Ok tt, s')).
  Proof.
    induction bins as [|b t IH]; intros s HK HD F; cbn [mark_bins]; [unfold ret; eauto|]. inversion F as [|? ? [F1 (it & F2 & F3)] F4]; subst. unfold bind.
    pose proof (K_chmod xxh d s1 all (fun m => Nat.lor m m111) (resolve (at_dir d b)) all s (conj HK HD)) as KC. rewrite (at_dir_plain d b F1), resolve_plain, F3 in *. change (d ++ names (fst it)) with (tgt d it) in *.
    destruct (k_done _ _ _ _ _ _ _ HK it F2 ltac:(discriminate)) as (i & m & C1 & C2 & _). unfold chmod in *. rewrite C1, C2 in *. destruct KC as [K1 K2]. apply IH; auto.
  Qed.
  (** a package whose archive is intact can always be extracted to a fresh place *)
  Theorem cold_total untar sri x bytes : items (fst (untar bytes)) = all -> snd (untar bytes) = true -> Forall (fun e => e_data e <> None) (fst (untar bytes)) ->
    (forall it, In it all -> fst it = "package.json" -> manifest (i_data it) <> None) ->
    Forall (fun b => tame b /\ exists it, In it all /\ names b = names (fst it)) (match mani_of manifest all with Some (_, b) => b | None => [] end) ->
    exists k s', extract_tarball xxh linkable reflinkable blob_mode untar manifest d sri true x bytes s1 = (Ok k, s').
  Proof.
    intros Eall Ecl HF Hm Hb. unfold extract_tarball. destruct (untar bytes) as [es clean]. cbn [fst snd] in *. subst clean.
    unfold bind at 1. change (mkdirp_op (map CNormal d) [] s1) with (mkdirp (map CNormal d) [] s1).
    pose proof (mkdirp_plain d [] s1 ltac:(intros k q [])) as MK.
    assert (Ex : exists s2, mkdirp (map CNormal d) [] s1 = (Ok (prefixes (map CNormal d) ++ []), s2)).
    { unfold mkdirp. cbn [known existsb]. destruct (create_all_total d [] s1) as [s2 E2]; [intros q H1 H2 _; now apply Hnofile|]. unfold create_dir_all. cbn [map] in E2. rewrite E2. destruct d; [contradiction|]. cbn. eauto. }
    destruct Ex as [s2 E2]. rewrite E2 in *. destruct MK as (G & C1 & C2 & C3 & C4). set (created := prefixes (map CNormal d) ++ []) in *.
    assert (S2 : okB (mkLoop created x (mkIdx false [] []) None) [] s2).
    { split; [exact (K_grow xxh d s1 all [] None s1 s2 (K_start xxh d s1 all) G)|]. split; [exact C1|]. split.
      - intros q. rewrite C4. split; [tauto|]. intros [H|[H [H1|(it & [] & _)]]]; auto.
      - repeat split; cbn; auto. }
    assert (T2 : tinv (mkLoop created x (mkIdx false [] []) None) s2).
    { split; [exact C2|]. cbn. intros q Hq Hd. apply C4 in Hq. assert (q = d); [|subst; exact C2]. destruct Hq as [Hq|[_ Hq]]; [now apply Hnodir|now apply prefix_antisym]. }
    unfold bind at 1. destruct (entries_total es _ [] Eall HF Hm s2 S2 T2) as (l & s3 & E3).
    pose proof (hoare_entries_B xxh linkable reflinkable blob_mode manifest d s1 all Htame Hdistinct Hhash Hwf Hshare es _ [] Eall s2 S2) as EB. rewrite E3 in *.
    destruct EB as [(HK & HC & HD & HX & HXb & HM & HXc & HP) _]. cbn [negb]. cbv zeta. rewrite HM. unfold bind. destruct (bins_total _ s3 HK HD Hb) as [s4 E4]. rewrite E4. eauto.
  Qed.
End Total.
