(** * Extraction from the local cache, proofs *)
From Verif Require Import Base Types StdPath Fs TarModel TarStream TarProofs TarContents.
Open Scope string_scope.
Open Scope list_scope.

Section Warm.
  Variable xxh : string -> string.
  Variables linkable reflinkable : bool.
  Notation efc := (extract_from_cache xxh linkable reflinkable).
  Variables (d : path) (s1 : st) (bins : list string) (x : xmode) (all : list item).
  Notation n1 := (List.length (s_inodes s1)).
  Hypothesis Htame : Forall (fun it => tame (fst it)) all.
  Hypothesis Hdistinct : NoDup (map (fun it => names (fst it)) all).
  Hypothesis Hfresh : forall it, In it all -> s_file s1 (tgt d it) = None.
  Hypothesis Hwfb : forall h i, s_blob s1 h = Some i -> i < n1.
  (** here the items are those of the index: path, hash, mode *)
  Notation i_hash := i_data.
  Definition wmode (it : item) : nat := if existsb (String.eqb (fst it)) bins then Nat.lor (i_mode it) m111 else i_mode it.
  Record KW (done : list item) (s : st) : Prop := mkKW {
    w_len : n1 <= List.length (s_inodes s);
    w_file : forall q, ~ In q (map (tgt d) done) -> s_file s q = s_file s1 q;
    w_done : forall it, In it done -> exists i c m i0 m0, s_file s (tgt d it) = Some i /\ nth_error (s_inodes s) i = Some (c, m) /\ blob xxh (i_hash it) s1 = Some (i0, c, m0) /\
        (is_copy x = true -> n1 <= i /\ m = mode_of (wmode it) m0);
    w_old : forall j c m, nth_error (s_inodes s1) j = Some (c, m) -> exists m', nth_error (s_inodes s) j = Some (c, m') /\ (is_copy x = true -> m' = m);
    w_blob : s_blob s = s_blob s1;
    w_index : s_index s = s_index s1;
    w_mono : forall q, s_dir s1 q = true -> s_dir s q = true }.
  Definition wdirs (done : list item) (s : st) : Prop :=
    forall q, s_dir s q = true <-> s_dir s1 q = true \/ (q <> [] /\ exists it, In it done /\ prefix q (removelast (tgt d it))).
  Definition wdirs_le (s : st) : Prop :=
    forall q, s_dir s q = true -> s_dir s1 q = true \/ (q <> [] /\ exists it, In it all /\ prefix q (removelast (tgt d it))).
  Lemma KW_grow done s s' : KW done s -> dirs_grow s s' -> KW done s'.
  Proof. intros [A B C D E F G] [G1 G2 G3 G4 G5]. constructor; rewrite ?G1, ?G2, ?G3, ?G4; auto. Qed.
  Lemma KW_place done it rest s s' : done ++ it :: rest = all -> KW done s -> placed xxh (i_hash it) (tgt d it) x (wmode it) s s' ->
    KW (done ++ [it]) s' /\ s_dir s' = s_dir s.
  Proof.
    intros Eall [A1 A2 A3 A4 A5 A6 A7] (i & c & m0 & B & _ & P). apply blob_spec in B. destruct B as (B1 & B2 & B3). rewrite A5 in B1.
    assert (Hin : In it all) by (rewrite <- Eall; apply in_or_app; right; now left).
    assert (Hn2 : forall y, In y done -> tgt d y <> tgt d it).
    { intros y Hy Ey. unfold tgt in Ey. apply app_inv_head in Ey. apply (nodup_new all Hdistinct done it rest Eall). rewrite <- Ey. apply in_map_iff. now exists y. }
    assert (F : s_file s (tgt d it) = None) by (rewrite A2; [now apply Hfresh|]; intros H; apply in_map_iff in H; destruct H as (y & Ey & Hy); now apply (Hn2 y)).
    assert (Li : i < n1) by now apply (Hwfb (i_hash it)).
    destruct (nth_error (s_inodes s1) i) as [[c1 m1]|] eqn:N1; [|apply nth_error_None in N1; lia].
    destruct (A4 i c1 m1 N1) as (m' & N2 & N3). rewrite B2 in N2. injection N2 as <- <-.
    assert (Bl : blob xxh (i_hash it) s1 = Some (i, c, m1)) by (apply blob_spec; auto).
    assert (Gen : forall l2 i0 m, (forall k c' m', nth_error (s_inodes s) k = Some (c', m') -> exists m2, nth_error l2 k = Some (c', m2) /\ (is_copy x = true -> m2 = m')) ->
       n1 <= List.length l2 -> nth_error l2 i0 = Some (c, m) -> (is_copy x = true -> n1 <= i0 /\ m = mode_of (wmode it) m1) ->
       KW (done ++ [it]) (mkSt (s_dir s) (upd (tgt d it) (Some i0) (s_file s)) l2 (s_blob s) (s_index s))).
    { intros l2 i0 m H1 H2 H3 H4. constructor; cbn; auto.
      - intros q Hq. rewrite map_app, in_app_iff in Hq. rewrite upd_neq; [apply A2; tauto|]. intros ->. apply Hq. right. now left.
      - intros y Hy. apply in_app_or in Hy. destruct Hy as [Hy|[<-|[]]].
        + rewrite upd_neq by now apply Hn2. destruct (A3 y Hy) as (k & c' & mk & i' & m0' & C1 & C2 & C3 & C4). destruct (H1 k _ _ C2) as (m2 & D1 & D2). exists k, c', m2, i', m0'.
          split; [exact C1|]. split; [exact D1|]. split; [exact C3|]. intros Hx. destruct (C4 Hx) as [C5 C6]. split; [exact C5|]. rewrite D2 by exact Hx. exact C6.
        + rewrite upd_eq. exists i0, c, m, i, m1. auto.
      - intros j c' m' Hj. destruct (A4 j c' m' Hj) as (m2 & C1 & C2). destruct (H1 j _ _ C1) as (m3 & D1 & D2). exists m3. split; [exact D1|]. intros Hx. rewrite D2, C2 by exact Hx. reflexivity. }
    destruct P as [(P1 & P2 & ->)|[(P1 & ->)|(j & P1 & ->)]]; [| |congruence].
    - split; [|reflexivity]. unfold set_inodes, set_file. cbn [s_dir s_file s_inodes s_blob s_index].
      assert (Hi : i < List.length (s_inodes s)) by lia.
      apply (Gen _ i (if Nat.eqb (wmode it) m644 then m0 else wmode it)).
      + intros k c' m' Hk. destruct (Nat.eqb (wmode it) m644); [eauto|]. destruct (Nat.eq_dec i k) as [<-|Ne]; [|rewrite nth_lset_neq by auto; eauto]. rewrite nth_lset_eq by exact Hi. rewrite B2 in Hk. injection Hk as <- <-. exists (wmode it). split; [reflexivity|congruence].
      + destruct (Nat.eqb (wmode it) m644); rewrite ?lset_length; exact A1.
      + destruct (Nat.eqb (wmode it) m644); [exact B2|now rewrite nth_lset_eq].
      + congruence.
    - split; [|reflexivity]. unfold set_inodes, set_file. cbn [s_dir s_file s_inodes s_blob s_index]. apply (Gen _ _ (mode_of (wmode it) m0)).
      + intros k c' m' Hk. exists m'. split; [now apply nth_error_app1_some|auto].
      + rewrite app_length. lia.
      + apply nth_snoc.
      + intros Hx. split; [exact A1|]. now rewrite N3.
  Qed.
  Definition left_over (s : st) : Prop := exists done, incl done all /\ KW done s /\ wdirs_le s.
  Lemma warm_loop : forall files done created, done ++ files = all ->
    hoare (fun s => KW done s /\ created_ok created s /\ wdirs done s)
      (warm_files xxh linkable reflinkable d bins files x created) (fun _ s => KW all s /\ wdirs all s) left_over.
  Proof.
    induction files as [|it t IH]; intros done created Eall; cbn [warm_files]; [rewrite app_nil_r in Eall; subst; apply hoare_ret; tauto|].
    destruct it as [e [h m]] eqn:Eit. change e with (fst (e, (h, m))). rewrite <- Eit. replace h with (i_hash it) by (subst it; reflexivity). fold (wmode it).
    replace (if existsb (String.eqb (fst it)) bins then Nat.lor m m111 else m) with (wmode it) by (subst it; reflexivity). rewrite <- Eit in Eall. clear e h m Eit.
    assert (Hin : In it all) by (rewrite <- Eall; apply in_or_app; right; now left).
    assert (Hd : incl done all) by (intros y Hy; rewrite <- Eall; apply in_or_app; now left).
    assert (Hd2 : incl (done ++ [it]) all) by (intros y Hy; apply in_app_or in Hy; destruct Hy as [Hy|[<-|[]]]; auto).
    assert (Tm : tame (fst it)) by (rewrite Forall_forall in Htame; now apply Htame).
    rewrite (at_dir_plain d _ Tm), sparent_plain, resolve_plain. fold (tgt d it).
    intros s (HK & HC & HD). unfold bind at 1. change (mkdirp_op ?a ?b s) with (mkdirp a b s).
    pose proof (mkdirp_plain (removelast (tgt d it)) created s HC) as MK. destruct (mkdirp _ created s) as [[created'|er|] s2]; [| |contradiction].
    2: { destruct MK as [G MK]. exists done. split; [exact Hd|]. split; [now apply (KW_grow done s)|]. intros q Hq. apply MK in Hq. destruct Hq as [Hq|[H1 H2]].
         - apply HD in Hq. destruct Hq as [Hq|(H1 & y & Hy & H2)]; [auto|]. right. split; [exact H1|]. exists y. auto.
         - right. split; [exact H1|]. now exists it. }
    destruct MK as (G & C1 & C2 & C3 & C4). apply (KW_grow done s s2) in HK; [|exact G].
    assert (HD2 : wdirs (done ++ [it]) s2).
    { intros q. rewrite C4, (HD q). split.
      - intros [[H|(H1 & y & H2 & H3)]|[H1 H2]]; [auto| |].
        + right. split; [exact H1|]. exists y. split; [apply in_or_app; now left|exact H3].
        + right. split; [exact H1|]. exists it. split; [apply in_or_app; right; now left|exact H2].
      - intros [H|(H1 & y & H2 & H3)]; [auto|]. apply in_app_or in H2. destruct H2 as [H2|[<-|[]]]; [|auto]. left. right. split; [exact H1|]. now exists y. }
    assert (Le2 : wdirs_le s2) by (intros q Hq; apply HD2 in Hq; destruct Hq as [Hq|(H1 & y & Hy & H2)]; [auto|]; right; split; [exact H1|]; exists y; auto).
    unfold bind at 1. pose proof (efc_cases xxh linkable reflinkable (i_hash it) (tgt d it) x (wmode it) s2) as E.
    destruct (efc (i_hash it) (tgt d it) x (wmode it) s2) as [[u|er|] s3]; [| |contradiction].
    2: { subst s3. exists done. auto. }
    destruct (KW_place done it t s2 s3 Eall HK E) as [HK3 ED3].
    apply (IH (done ++ [it]) created'); [rewrite <- app_assoc; exact Eall|]. split; [exact HK3|]. split; [unfold created_ok; now rewrite ED3|]. unfold wdirs in *. now rewrite ED3.
  Qed.
End Warm.
Theorem warm_result xxh linkable reflinkable d s1 idx files x :
  Forall (fun it : item => tame (fst it)) files -> NoDup (map (fun it => names (fst it)) files) ->
  (forall it, In it files -> s_file s1 (tgt d it) = None) -> (forall h i, s_blob s1 h = Some i -> i < List.length (s_inodes s1)) ->
  match warm xxh linkable reflinkable d idx files x s1 with
  | (Ok _, s') => KW xxh d s1 (x_bins idx) (warm_mode idx x) files s' /\ wdirs d s1 files s'
  | (Err _, s') => left_over xxh d s1 (x_bins idx) (warm_mode idx x) files s'
  | (Panic, _) => False
  end.
Proof.
  intros H1 H2 H3 H4. unfold warm. apply (warm_loop xxh linkable reflinkable d s1 (x_bins idx) (warm_mode idx x) files H1 H2 H3 H4 files [] [] eq_refl).
  split; [|split; [intros k q []|]].
  - constructor; auto; try contradiction. intros j c m Hj. exists m. auto.
  - intros q. split; [auto|]. intros [H|(_ & it & [] & _)]. exact H.
Qed.
