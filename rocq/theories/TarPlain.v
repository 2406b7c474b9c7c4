(** * Extraction without a cache, proofs *)
From Verif Require Import Base Types StdPath Fs TarModel TarStream TarProofs TarContents.
Open Scope string_scope.
Open Scope list_scope.

Section Plain.
  Variable xxh : string -> string.
  Variables linkable reflinkable : bool.
  Variable blob_mode : nat.
  Variable manifest : string -> option (bool * list string).
  Variables (d : path) (s1 : st) (all : list item).
  Hypothesis Htame : Forall (fun it => tame (fst it)) all.
  Hypothesis Hdistinct : NoDup (map (fun it => names (fst it)) all).
  Notation M := (M d s1 i_mode).
  Definition okP (l : loop) (done : list item) (s : st) : Prop :=
    M done s /\ created_ok (l_created l) s /\ dirs_of d s1 done s /\ l_mani l = None /\ s_blob s = s_blob s1 /\ s_index s = s_index s1.
  Lemma entry_plain e l done rest c : e_regular e = true -> e_data e = Some c ->
    let it := (strip_one (e_path e), (c, entry_mode e)) in
    done ++ it :: rest = all ->
    hoare (okP l done) (extract_entry xxh linkable reflinkable blob_mode manifest d false e l) (fun l' => okP l' (done ++ [it])) (fun _ => True).
  Proof.
    intros R Ec it Eall. unfold extract_entry. rewrite R, Ec. change (strip_one (e_path e)) with (fst it). change (entry_mode e) with (i_mode it). change c with (i_data it).
    clearbody it. clear R Ec c.
    assert (Hin : In it all) by (rewrite <- Eall; apply in_or_app; right; now left).
    assert (Tm : tame (fst it)) by (rewrite Forall_forall in Htame; now apply Htame).
    pose proof (nodup_new all Hdistinct done it rest Eall) as Hn.
    assert (Hn2 : forall y, In y done -> tgt d y <> tgt d it).
    { intros y Hy Ey. unfold tgt in Ey. apply app_inv_head in Ey. apply Hn. rewrite <- Ey. apply in_map_iff. now exists y. }
    rewrite (at_dir_plain d _ Tm), sparent_plain, resolve_plain. fold (tgt d it). intros s (HM & HC & HD & HN & HB & HI).
    unfold bind. change (mkdirp_op ?a ?b s) with (mkdirp a b s).
    pose proof (mkdirp_plain (removelast (tgt d it)) (l_created l) s HC) as MK. destruct (mkdirp _ (l_created l) s) as [[created|er|] s2]; [|exact I|contradiction].
    destruct MK as (G & C1 & C2 & C3 & C4).
    assert (HD2 : dirs_of d s1 (done ++ [it]) s2).
    { intros q. rewrite C4, (HD q). split.
      - intros [[H1|[H1 [H2|(y & H2 & H3)]]]|[H1 H2]]; [now left|right; auto| |].
        + right. split; [exact H1|]. right. exists y. split; [apply in_or_app; now left|exact H3].
        + right. split; [exact H1|]. right. exists it. split; [apply in_or_app; right; now left|exact H2].
      - intros [H1|[H1 [H2|(y & H2 & H3)]]]; [auto|auto|]. apply in_app_or in H2. destruct H2 as [H2|[<-|[]]]; [|auto]. left. right. split; [exact H1|]. right. now exists y. }
    apply (M_grow d s1 i_mode _ s s2) in HM; [|exact G]. rewrite <- (dg_blob _ _ G) in HB. rewrite <- (dg_index _ _ G) in HI. clear HD C4 C2 C3 G HC s.
    destruct (negb (exists_at s2 (tgt d it)) && parent_ok s2 (tgt d it)); [|exact I]. cbn [new_inode].
    destruct HM as [A1 A2 A3 A4]. split; [|split; [exact C1|split; [exact HD2|auto]]].
    constructor; cbn.
    - rewrite app_length. lia.
    - intros q Hq. rewrite map_app, in_app_iff in Hq. rewrite upd_neq; [apply A2; tauto|]. intros ->. apply Hq. right. now left.
    - intros y Hy. apply in_app_or in Hy. destruct Hy as [Hy|[<-|[]]].
      + rewrite upd_neq by now apply Hn2. destruct (A3 y Hy) as (k & D1 & D2). exists k. split; [exact D1|now apply nth_error_app1_some].
      + rewrite upd_eq. eexists. split; [reflexivity|apply nth_snoc].
    - assert (Lt : forall y k, In y done -> s_file s2 (tgt d y) = Some k -> k < List.length (s_inodes s2)).
      { intros y k Hy Hk. destruct (A3 y Hy) as (k' & D1 & D2). assert (k' = k) by congruence. subst. apply nth_error_Some. rewrite D2. discriminate. }
      intros a b i1 Ha Hb. apply in_app_or in Ha. apply in_app_or in Hb. destruct Ha as [Ha|[<-|[]]], Hb as [Hb|[<-|[]]]; auto.
      + rewrite !upd_neq by now apply Hn2. now apply A4.
      + rewrite upd_eq, upd_neq by now apply Hn2. intros E1 E2. injection E2 as <-. apply Lt in E1; [lia|exact Ha].
      + rewrite upd_eq, upd_neq by now apply Hn2. intros E2 E1. injection E2 as <-. apply Lt in E1; [lia|exact Hb].
  Qed.
  Lemma entries_plain : forall es l done, done ++ items es = all ->
    hoare (okP l done) (extract_entries xxh linkable reflinkable blob_mode manifest d false es l) (fun l' => okP l' all) (fun _ => True).
  Proof.
    induction es as [|e es IH]; intros l done E; cbn [extract_entries].
    - cbn in E. rewrite app_nil_r in E. subst. apply hoare_ret. auto.
    - cbn [items flat_map] in E. destruct (e_regular e) eqn:R.
      + destruct (e_data e) as [c|] eqn:D.
        * apply hoare_bind with (Q := fun l' => okP l' (done ++ [(strip_one (e_path e), (c, entry_mode e))])).
          -- exact (entry_plain e l done (items es) c R D E).
          -- intros l'. apply IH. rewrite <- app_assoc. exact E.
        * intros s Hs. unfold bind, extract_entry. rewrite R, D. unfold bind. change (mkdirp_op ?a ?b s) with (mkdirp a b s).
          destruct (mkdirp _ (l_created l) s) as [[cr|er|] s2] eqn:MK; [|exact I|now apply mkdirp_no_panic in MK]. destruct (negb _ && _); exact I.
      + intros s Hs. unfold bind, extract_entry. rewrite R. destruct (e_data e) as [c|] eqn:D; [|exact I]. cbn [ret]. exact (IH l done E s Hs).
  Qed.
  Theorem plain_result untar sri x bytes : items (fst (untar bytes)) = all ->
    match extract_tarball xxh linkable reflinkable blob_mode untar manifest d sri false x bytes s1 with
    | (Ok k, s') => k = match sri with Some i => i | None => xxh bytes end /\ M all s' /\ dirs_of d s1 all s' /\ s_blob s' = s_blob s1 /\ s_index s' = s_index s1
    | (Err _, _) => True
    | (Panic, _) => False
    end.
  Proof.
    intros Eall. unfold extract_tarball. destruct (untar bytes) as [es clean]. cbn [fst snd] in *.
    unfold bind at 1. change (mkdirp_op (map CNormal d) [] s1) with (mkdirp (map CNormal d) [] s1).
    pose proof (mkdirp_plain d [] s1 ltac:(intros k q [])) as MK. destruct (mkdirp (map CNormal d) [] s1) as [[created|er|] s2]; [|exact I|contradiction].
    destruct MK as (G & C1 & C2 & C3 & C4).
    assert (S2 : okP (mkLoop created x (mkIdx false [] []) None) [] s2).
    { split; [apply (M_grow d s1 i_mode _ s1); [constructor; auto; contradiction|exact G]|]. split; [exact C1|]. split.
      - intros q. rewrite C4. split; [tauto|]. intros [H|[H [H1|(it & [] & _)]]]; auto.
      - split; [reflexivity|]. split; [apply (dg_blob _ _ G)|apply (dg_index _ _ G)]. }
    unfold bind at 1. pose proof (entries_plain es _ [] Eall s2 S2) as E. destruct (extract_entries _ _ _ _ _ d false es _ s2) as [[l|er|] s3]; [|exact I|contradiction].
    destruct E as (HM & HC & HD & HN & HB & HI). destruct clean; cbn [negb]; [|exact I]. cbv zeta. rewrite HN. cbn. auto.
  Qed.
End Plain.
