(** * Properties C21 to C25, C48, C49: package tarballs and the local cache.
    TarSpec (independent of the extraction code): [file_at], [contents_at], [package_files] (the files a tarball describes),
    [holds_package] (exactly these files below a directory), [holds_dirs], [confined] (everything outside is as it was),
    [proper] (distinct entry paths without ".."), [coherent] (no entry path leads through another file), [vacant]/[free_place]
    (an empty destination), [no_collision] (hash collisions), [cached_at], [cache_kept], [intact], [usable], [shared].
    TarStream: [received], the bytes a stream delivers. *)
From Verif Require Import Base Types StdPath Fs TarModel TarStream TarProofs TarContents TarWarm TarWarmTotal TarPlain TarTotal TarConfine TarSpec TarThms TarCache TarShare TarReplay.
From Coq Require Import Permutation.
Open Scope string_scope.
Open Scope list_scope.

Lemma rel_body b : body b = map to_comp (rel_names b).
Proof. unfold body, rel_names. fold keep. apply segs_filter. Qed.
Lemma rel_tame b : rel_inside b -> tame b.
Proof.
  unfold tame. rewrite rel_body. intros H K. apply in_map_iff in K. destruct K as (y & E & Hy). unfold to_comp in E. destruct (String.eqb_spec y ".."); [|discriminate]. subst y.
  apply H. unfold rel_names in Hy. now apply filter_In in Hy.
Qed.
Lemma rel_names_ok b : rel_inside b -> names b = rel_names b.
Proof.
  intros H. unfold names. rewrite rel_body. assert (K : ~ In ".." (rel_names b)) by (intros K; apply H; unfold rel_names in K; now apply filter_In in K).
  induction (rel_names b) as [|y t IH]; [reflexivity|]. cbn [map flat_map]. unfold to_comp at 1. destruct (String.eqb_spec y ".."); [subst; exfalso; apply K; now left|]. cbn. f_equal. apply IH. intros Q. apply K. now right.
Qed.
Lemma split_aux_cons2 ch s : forall cur, exists y l, split_aux ch cur s = y :: l.
Proof. induction s as [|c t IH]; intros cur; cbn [split_aux]; [eauto|]. destruct (Ascii.eqb c ch); eauto. Qed.
Lemma join_split s : join_slash (StdPath.split "/" s) = s.
Proof.
  assert (G : forall s cur, join_slash (split_aux "/" cur s) = (cur ++ s)%string); [|apply G].
  clear. induction s as [|c t IH]; intros cur; cbn [split_aux]; [cbn; now rewrite sapp_nil|]. destruct (Ascii.eqb_spec c "/") as [->|_].
  - specialize (IH ""). destruct (split_aux_cons2 "/" t "") as (y & l & E). rewrite E in *.
    change (join_slash (cur :: y :: l)) with (cur ++ "/" ++ join_slash (y :: l))%string. rewrite IH. reflexivity.
  - rewrite IH, sapp_assoc. reflexivity.
Qed.
Lemma plainly_filter l : plainly l -> filter keep l = l.
Proof. induction 1 as [|y l [H1 H2] _ IH]; [reflexivity|]. cbn. unfold keep at 1. apply String.eqb_neq in H1, H2. rewrite H1, H2. cbn. now rewrite IH. Qed.
Lemma plainly_trim l : plainly l -> trim l = l.
Proof.
  intros H. assert (T : forall l, plainly l -> trim_left l = l).
  { clear. intros [|y l] H; [reflexivity|]. inversion H as [|? ? [H1 H2] _]; subst. cbn. unfold is_dot. apply String.eqb_neq in H1, H2. now rewrite H1, H2. }
  unfold trim. rewrite (T l H), T; [apply rev_involutive|]. apply Forall_rev. exact H.
Qed.
Lemma plain_text b p : plainly (StdPath.split "/" b) -> plainly (tl (StdPath.split "/" p)) -> rel_names b = inner_path p -> b = strip_one p.
Proof.
  intros H1 H2 E. unfold rel_names, inner_path in E. change (fun x : string => negb (String.eqb x "" || String.eqb x ".")) with keep in E. rewrite (plainly_filter _ H1), (plainly_filter _ H2) in E.
  unfold strip_one. rewrite (plainly_trim _ H2), <- E. symmetry. apply join_split.
Qed.

Section Props.
  (** oracles: integrity check, spill limit, content hash, what the file system can do, the mode of content files, the archive
      reader, the reader of package.json *)
  Variable check : string -> string -> bool.
  Variable limit : nat.
  Variable xxh : string -> string.
  Variables linkable reflinkable : bool.
  Variable blob_mode : nat.
  Variable untar : string -> list entry * bool.
  Variable manifest : string -> option (bool * list string).
  Notation stream := (extract_stream check limit xxh linkable reflinkable blob_mode untar manifest).
  Notation whole := (extract_to_dir check limit xxh linkable reflinkable blob_mode untar manifest).
  Notation entries := (entries untar).
  Notation index_of := (index_of xxh manifest).

  (** ** C21 *)
  (** C21. If what arrives does not match the integrity (or the stream breaks, or there is no answer), and the cache has no entry
      for the package, extraction fails and nothing at all has changed, however the bytes are chunked. *)
  Theorem C21_integrity : forall fetch order d i cached x s,
    (forall ev r, fetch = Some ev -> received ev = Some r -> check i r = false) ->
    (cached = true -> s_index s (tarball_key i) = None) ->
    exists e, whole fetch order d (Some i) cached x s = (Err e, s).
  Proof.
    intros fetch order d i cached x s Hf Hi.
    assert (FE : exists e, fetch_extract check limit xxh linkable reflinkable blob_mode untar manifest fetch d (Some i) cached x s = (Err e, s)).
    { unfold fetch_extract. destruct fetch as [ev|]; [|unfold fail; eauto]. rewrite stream_unfold. destruct (received ev) as [r|] eqn:R; [|eauto]. rewrite (Hf ev r eq_refl R). eauto. }
    unfold extract_to_dir. destruct cached; [rewrite Hi by reflexivity|]; exact FE.
  Qed.
  (** C21. A success means that the bytes that arrived matched, or that the cache had an entry for this very integrity; in particular with an
      entry that is missing or was removed, the bytes matched. *)
  Theorem C21_checked : forall fetch order d i cached x s k s', whole fetch order d (Some i) cached x s = (Ok k, s') ->
    (exists ev r, fetch = Some ev /\ received ev = Some r /\ check i r = true) \/ (cached = true /\ exists idx, s_index s (tarball_key i) = Some (Some idx)).
  Proof.
    intros fetch order d i cached x s k s' E.
    assert (FE : forall ca s0, fetch_extract check limit xxh linkable reflinkable blob_mode untar manifest fetch d (Some i) ca x s0 = (Ok k, s') -> exists ev r, fetch = Some ev /\ received ev = Some r /\ check i r = true).
    { intros ca s0. unfold fetch_extract. destruct fetch as [ev|]; [|discriminate]. rewrite stream_unfold. destruct (received ev) as [r|] eqn:R; [|discriminate]. destruct (check i r) eqn:C; [|discriminate]. intros _. eauto. }
    unfold extract_to_dir in E. destruct cached; [|left; now apply FE in E]. destruct (s_index s (tarball_key i)) as [[idx|]|] eqn:X; [right; eauto|discriminate|left; now apply FE in E].
  Qed.

  (** ** C22 *)
  Lemma J_confined d s s' : well_formed s -> J d s s' -> confined d s s'.
  Proof.
    intros [W1 W2] [A B C D E F]. constructor; auto.
    - intros q Hq. unfold file_at. rewrite (C q Hq). destruct (s_file s q) as [i|] eqn:Q; [|reflexivity]. apply B. now apply (W1 q).
    - intros i v H. rewrite B; [exact H|]. apply nth_error_Some. rewrite H. discriminate.
  Qed.
  (** C22 (partial: entry paths without ".." after the first component, bins inside the package, and hard links only made by
      extractions from the tarball; see C22_refuted). Whatever happens (also on failure), extraction into an empty destination leaves every file outside it (contents and
      mode), every content file of the cache and every directory as it was, and makes directories only on the way to or below the destination. *)
  Theorem C22_confined_partial : forall fetch order d sri cached x s, well_formed s -> vacant d s ->
    (forall text b bins, manifest text = Some (b, bins) -> Forall rel_inside bins) ->
    (forall ev bytes, fetch = Some ev -> received ev = Some bytes -> Forall (fun e => e_regular e = true -> inside (e_path e)) (entries bytes)) ->
    (forall i idx, sri = Some i -> s_index s (tarball_key i) = Some (Some idx) -> (is_copy x = true \/ x_copy idx = true) /\ Forall (fun f => rel_inside (fst f)) (order idx)) ->
    fst (whole fetch order d sri cached x s) <> Panic /\ confined d s (snd (whole fetch order d sri cached x s)).
  Proof.
    intros fetch order d sri cached x s W V Hb Ha Hx.
    assert (Hb' : forall text b bins, manifest text = Some (b, bins) -> Forall tame bins) by (intros t b bins H; eapply Forall_impl; [|exact (Hb t b bins H)]; apply rel_tame).
    pose proof (extract_confined check limit xxh linkable reflinkable blob_mode untar manifest d s Hb' fetch order sri cached x) as E.
    destruct (whole fetch order d sri cached x s) as [[k|e|] s']; cbn; (split; [discriminate|]) || exfalso; try apply J_confined; try exact W; apply E; try (intros q Hq; now apply (V q Hq)).
    1, 3, 5: intros ev bytes E1 E2; eapply Forall_impl; [|exact (Ha ev bytes E1 E2)]; intros e0 He R; apply tame_strip; now apply He.
    all: intros i idx E1 E2; destruct (Hx i idx E1 E2) as [H1 H2]; split; [exact H1|]; eapply Forall_impl; [|exact H2]; intros f; apply rel_tame.
  Qed.

  (** ** C23 *)
  (** C23. The temporary tarball holds exactly the bytes received, in memory or on disk, whatever the limit and the chunks. *)
  Theorem C23_spill : forall lim c ev,
    match into_temp check lim c ev with
    | Ok t => received ev = Some (temp_bytes t) /\ (t = TFile (temp_bytes t) <-> lim < String.length (temp_bytes t))
    | Err _ => True
    | Panic => False
    end.
  Proof.
    intros lim c ev. rewrite into_temp_ok. destruct (received ev) as [r|]; [|exact I]. destruct (verdict_of check c r); [|exact I].
    destruct (Nat.ltb_spec lim (String.length r)); cbn; (split; [reflexivity|]); split; auto; try lia; intros K; discriminate.
  Qed.
  (** C23. Only the bytes matter: with the same bytes, in other chunks and with another limit, everything happens the same. *)
  Theorem C23_chunks : forall lim1 lim2 ev1 ev2 order d sri cached x s, received ev1 = received ev2 ->
    extract_to_dir check lim1 xxh linkable reflinkable blob_mode untar manifest (Some ev1) order d sri cached x s =
    extract_to_dir check lim2 xxh linkable reflinkable blob_mode untar manifest (Some ev2) order d sri cached x s.
  Proof.
    intros lim1 lim2 ev1 ev2 order d sri cached x s E.
    assert (F : forall o ca s, fetch_extract check lim1 xxh linkable reflinkable blob_mode untar manifest (Some ev1) d o ca x s = fetch_extract check lim2 xxh linkable reflinkable blob_mode untar manifest (Some ev2) d o ca x s).
    { intros o ca s0. unfold fetch_extract. rewrite !stream_unfold, E. reflexivity. }
    unfold extract_to_dir. destruct sri as [i|]; [|apply F]. destruct cached; [|apply F]. destruct (s_index s (tarball_key i)) as [[idx|]|]; [| |apply F].
    - destruct (warm _ _ _ d idx (order idx) x s) as [[u|e|] s1]; auto. unfold bind. destruct (clean_from_cache i (Some idx) s1) as [[u|e2|] s2]; auto.
    - reflexivity.
  Qed.

  (** ** C24 *)
  (** C24. Extraction from the tarball, with a cache or without, into an empty place: exactly the files of the package with their contents, and the
      directories leading to them. *)
  Theorem C24_fresh : forall ev order d sri cached x bytes s k s', (cached = true -> forall i, sri = Some i -> s_index s (tarball_key i) = None) ->
    proper (entries bytes) -> no_collision xxh (contents_of (entries bytes)) -> vacant d s -> received ev = Some bytes ->
    whole (Some ev) order d sri cached x s = (Ok k, s') ->
    holds_package d (entries bytes) s' /\ (coherent (entries bytes) -> holds_dirs d (entries bytes) s').
  Proof.
    intros ev order d sri cached x bytes s k s' Hi P N V R E.
    assert (FE : extract_tarball xxh linkable reflinkable blob_mode untar manifest d sri cached x bytes s = (Ok k, s')).
    { assert (F : fetch_extract check limit xxh linkable reflinkable blob_mode untar manifest (Some ev) d sri cached x s = (Ok k, s')).
      { unfold extract_to_dir in E. destruct sri as [i|]; [|exact E]. destruct cached; [|exact E]. rewrite (Hi eq_refl i eq_refl) in E. exact E. }
      unfold fetch_extract in F. rewrite stream_unfold, R in F. destruct (match sri with Some i => check i bytes | None => true end); [exact F|discriminate]. }
    destruct cached.
    - destruct (cold_contents xxh linkable reflinkable blob_mode untar manifest d sri x bytes s k s' P N V FE) as (A & B & _). split; [exact A|]. intros C. apply B. exact (proj1 C).
    - destruct (plain_contents xxh linkable reflinkable blob_mode untar manifest d sri x bytes s k s' P V FE) as (A & B). split; [exact A|]. intros C. apply B. exact (proj1 C).
  Qed.
  (** C24. Once a package was extracted from its tarball, and while the cache keeps what it wrote, the package can be extracted anywhere else, any
      number of times, without the network, in any mode: the same files, contents and directories. *)
  Theorem C24_again : forall d1 d2 sri x1 x2 bytes s s1 s2 k order fetch,
    proper (entries bytes) -> coherent (entries bytes) -> no_collision xxh (contents_of (entries bytes)) -> vacant d1 s ->
    well_formed s -> extract_tarball xxh linkable reflinkable blob_mode untar manifest d1 sri true x1 bytes s = (Ok k, s1) ->
    well_formed s2 -> free_place d2 s2 -> cache_kept xxh k (entries bytes) s1 s2 -> (forall idx, Permutation (x_files idx) (order idx)) ->
    exists s3, whole fetch order d2 (Some k) true x2 s2 = (Ok k, s3) /\ holds_package d2 (entries bytes) s3 /\ holds_dirs d2 (entries bytes) s3.
  Proof.
    intros d1 d2 sri x1 x2 bytes s s1 s2 k order fetch P Co N V W E W2 F Kp Ho.
    destruct (replay check limit xxh linkable reflinkable blob_mode untar manifest d1 d2 sri x1 x2 bytes s s1 s2 k order P N V W E Co W2 F Kp Ho fetch) as (s3 & A & B & C & _). eauto.
  Qed.
  (** C24 (partial: copying modes, content files of mode 0644, bin paths written plainly). Then the modes agree, too. *)
  Theorem C24_modes_partial : forall d1 d2 sri x1 x2 bytes s s1 s2 k order fetch,
    proper (entries bytes) -> coherent (entries bytes) -> no_collision xxh (contents_of (entries bytes)) -> vacant d1 s ->
    well_formed s -> extract_tarball xxh linkable reflinkable blob_mode untar manifest d1 sri true x1 bytes s = (Ok k, s1) ->
    well_formed s2 -> free_place d2 s2 -> cache_kept xxh k (entries bytes) s1 s2 -> (forall idx, Permutation (x_files idx) (order idx)) ->
    is_copy x1 = true -> is_copy x2 = true \/ scripts_of manifest (entries bytes) = true -> blob_mode = 420 ->
    Forall (fun b => rel_inside b /\ plainly (StdPath.split "/" b)) (bins_of manifest (entries bytes)) ->
    Forall (fun e => e_regular e = true -> plainly (tl (StdPath.split "/" (e_path e)))) (entries bytes) ->
    exists s3, whole fetch order d2 (Some k) true x2 s2 = (Ok k, s3) /\ forall q, file_at s3 (d2 ++ q) = file_at s1 (d1 ++ q).
  Proof.
    intros d1 d2 sri x1 x2 bytes s s1 s2 k order fetch P Co N V W E W2 F Kp Ho X1 X2 Bm Hb He.
    apply (replay_modes check limit xxh linkable reflinkable blob_mode untar manifest d1 d2 sri x1 x2 bytes s s1 s2 k order P N V W E Co W2 F Kp Ho fetch X1 X2 Bm).
    - eapply Forall_impl; [|exact Hb]. intros b [H _]. now apply rel_tame.
    - intros b e Ib Ie R En. rewrite Forall_forall in Hb, He. destruct (Hb b Ib) as [H1 H2]. apply plain_text; [exact H2|now apply He|]. now rewrite <- (rel_names_ok b H1).
  Qed.

  (** ** C25 *)
  (** an entry of the cache that an earlier extraction of these bytes wrote *)
  Definition genuine (k bytes : string) (s : st) : Prop := exists d sri x s0 s1, vacant d s0 /\
    extract_tarball xxh linkable reflinkable blob_mode untar manifest d sri true x bytes s0 = (Ok k, s1) /\ s_index s (tarball_key k) = s_index s1 (tarball_key k).
  Lemma genuine_index k bytes s : proper (entries bytes) -> no_collision xxh (contents_of (entries bytes)) -> genuine k bytes s -> s_index s (tarball_key k) = Some (Some (index_of (entries bytes))).
  Proof.
    intros P N (d & sri & x & s0 & s1 & V & E & ->). now apply (cold_contents xxh linkable reflinkable blob_mode untar manifest d sri x bytes s0 k s1 P N V).
  Qed.
  (** C25 (partial: soundness). Whatever the content files of the cache have become (missing, truncated, altered), whether the entry is there,
      missing or unreadable: if extraction reports success, exactly the package's files with their contents are there. *)
  Theorem C25_sound_partial : forall fetch order d k cached x bytes s k' s',
    proper (entries bytes) -> no_collision xxh (contents_of (entries bytes) ++ map fst (s_inodes s)) -> vacant d s -> well_formed s ->
    (forall b, check k b = true -> b = bytes) ->
    (s_index s (tarball_key k) = None \/ s_index s (tarball_key k) = Some None \/ genuine k bytes s) ->
    (forall idx, Permutation (x_files idx) (order idx)) ->
    whole fetch order d (Some k) cached x s = (Ok k', s') -> k' = k /\ holds_package d (entries bytes) s'.
  Proof.
    intros fetch order d k cached x bytes s k' s' P C V W Hc Hi Ho E.
    assert (N : no_collision xxh (contents_of (entries bytes))) by (intros a b Ha Hb; apply C; apply in_or_app; now left).
    apply (whole_contents check limit xxh linkable reflinkable blob_mode untar manifest fetch order d k cached x bytes s k' s'); eauto.
    destruct Hi as [Hi|[Hi|Hi]]; auto. right. right. now apply genuine_index.
  Qed.
  (** C25 (partial: packages without subdirectories). Whatever the content files of the cache have become, if the network delivers the package, extraction succeeds. *)
  Theorem C25_falls_back_partial : forall ev order d k x bytes s,
    proper (entries bytes) -> no_collision xxh (contents_of (entries bytes) ++ map fst (s_inodes s)) -> free_place d s -> well_formed s ->
    (forall f, In f (package_files (entries bytes)) -> List.length (fst f) = 1) ->
    (forall idx, Permutation (x_files idx) (order idx)) -> genuine k bytes s ->
    received ev = Some bytes -> check k bytes = true -> intact untar bytes -> usable manifest (entries bytes) ->
    exists s', whole (Some ev) order d (Some k) true x s = (Ok k, s') /\ holds_package d (entries bytes) s'.
  Proof.
    intros ev order d k x bytes s P C (Nd & V & Nf) W Flat Ho Hg R Ck [I1 I2] [U1 U2].
    assert (N : no_collision xxh (contents_of (entries bytes))) by (intros a b Ha Hb; apply C; apply in_or_app; now left).
    apply (whole_flat check limit xxh linkable reflinkable blob_mode untar manifest (Some ev) ev order d k x bytes s); auto.
    - now apply genuine_index.
    - eapply Forall_impl; [|exact U2]. intros b (H1 & f & H2 & H3). split; [now apply rel_tame|]. exists f. split; [exact H2|]. now rewrite rel_names_ok.
  Qed.

  (** ** C48 *)
  Lemma clean_blobs_fewer files : forall s h i, s_blob (snd (clean_blobs files s)) h = Some i -> s_blob s h = Some i.
  Proof.
    induction files as [|[e [k m]] t IH]; intros s h i; cbn [clean_blobs]; [auto|]. intros H. apply IH in H. cbn in H. unfold supd in H.
    destruct (String.eqb h k); [discriminate|exact H].
  Qed.
  Lemma sep_shared T s q : sep T s -> T q -> ~ shared s q.
  Proof. intros S Hq (h & i & F & B). exact (S q h i Hq F B). Qed.
  (** C48 (partial: package.json is excepted when extracted from the network in a hard-linking mode, see C48_refuted). The files of a package with
      install scripts (which may write to them) do not share storage with the cache, whatever the mode asked for and whatever has become of the cache's content
      files; the same for any package when the mode is a copying one. *)
  Theorem C48_own_storage_partial : forall fetch order d k x bytes s k' s',
    proper (entries bytes) -> no_collision xxh (contents_of (entries bytes) ++ map fst (s_inodes s)) -> vacant d s -> well_formed s ->
    (forall b, check k b = true -> b = bytes) ->
    (s_index s (tarball_key k) = None \/ s_index s (tarball_key k) = Some None \/ genuine k bytes s) ->
    (forall idx, Permutation (x_files idx) (order idx)) ->
    whole fetch order d (Some k) true x s = (Ok k', s') ->
    is_copy x = true \/ scripts_of manifest (entries bytes) = true ->
    forall f, In f (package_files (entries bytes)) -> fst f <> ["package.json"] \/ is_copy x = true \/ (genuine k bytes s /\ fetch = None) -> ~ shared s' (d ++ fst f).
  Proof.
    intros fetch order d k x bytes s k' s' P C V W Hc Hi Ho E Hx f Hf Hp. destruct (proper_items _ P) as [T D].
    assert (N : no_collision xxh (contents_of (entries bytes))) by (intros a b Ha Hb; apply C; apply in_or_app; now left).
    apply in_files in Hf; [|apply P]. destruct Hf as (it & Hit & ->). cbn [fst] in *. fold (tgt d it) in *. fold (tgt d it).
    (* what was extracted from the network over files that are not shared *)
    assert (Net : forall s0, well_formed s0 -> sep (prefix d) s0 ->
      (forall it i, In it (items (entries bytes)) -> s_file s0 (tgt d it) = Some i -> i < List.length (s_inodes s0)) ->
      (forall a b i, In a (items (entries bytes)) -> In b (items (entries bytes)) -> s_file s0 (tgt d a) = Some i -> s_file s0 (tgt d b) = Some i -> i_data a = i_data b) ->
      fetch_extract check limit xxh linkable reflinkable blob_mode untar manifest fetch d (Some k) true x s0 = (Ok k', s') ->
      ~ (genuine k bytes s /\ fetch = None) -> ~ shared s' (tgt d it)).
    { intros s0 W0 S0 F0 G0 E0 Hn. unfold fetch_extract in E0. destruct fetch as [ev|]; [|discriminate]. rewrite stream_unfold in E0. destruct (received ev) as [r|]; [|discriminate]. destruct (check k r) eqn:Ck; [|discriminate]. apply Hc in Ck. subst r.
      pose proof (share_result xxh linkable reflinkable blob_mode manifest d s0 (items (entries bytes)) T D (hash_items xxh _ (proj1 P) N) F0 G0 S0 x untar (Some k) bytes eq_refl W0) as R.
      rewrite E0 in R. destruct R as (_ & S & _). apply (sep_shared (own d x (items (entries bytes)))).
      + apply S. destruct Hx as [Hx|Hx]; [now left|right]. rewrite (mani_manifest manifest _ P). unfold scripts_of in Hx. destruct (manifest_of manifest (entries bytes)) as [[b bins]|]; [|discriminate]. subst b. eauto.
      + exists it. split; [exact Hit|]. split; [reflexivity|]. destruct Hp as [Hp|[Hp|Hp]]; [right|now left|contradiction].
        intros Ef. apply Hp. rewrite Ef. reflexivity. }
    unfold extract_to_dir in E. destruct Hi as [Hi|[Hi|Hi]].
    - rewrite Hi in E. apply (Net s W (vacant_sep _ _ V)).
      + intros y i Hy F. destruct (vacant_tgt d s _ V y i Hy F).
      + intros a b i Ha _ F _. destruct (vacant_tgt d s _ V a i Ha F).
      + exact E.
      + intros [Hg _]. apply genuine_index in Hg; auto. congruence.
    - rewrite Hi in E. discriminate.
    - pose proof Hi as Hg. apply genuine_index in Hi; auto. rewrite Hi in E. set (idx := index_of (entries bytes)) in *.
      destruct (perm_files xxh manifest (entries bytes) (order idx) (Ho idx) P) as (Tl & Dl & Ll).
      pose proof (warm_result xxh linkable reflinkable d s idx (order idx) x Tl Dl ltac:(intros y _; apply (V _ (prefix_app _ _))) (proj2 W)) as R.
      assert (Wm : is_copy (warm_mode idx x) = true).
      { unfold warm_mode. unfold idx at 1. rewrite (proj2 (index_bins xxh manifest (entries bytes) P)).
        destruct (is_copy x) eqn:X; [destruct (scripts_of manifest (entries bytes)); exact X|]. destruct Hx as [Hx|Hx]; [congruence|]. rewrite Hx. reflexivity. }
      destruct (warm xxh linkable reflinkable d idx (order idx) x s) as [[u|er|] s1]; [| |discriminate].
      + injection E as <- <-. destruct R as [HK _]. destruct (w_done _ _ _ _ _ _ _ HK (idx_of xxh it)) as (i & c & m & i0 & m0 & C1 & C2 & C3 & C4); [apply Ll; eauto|].
        intros (h & j & F & B). change (tgt d (idx_of xxh it)) with (tgt d it) in C1. assert (j = i) by congruence. subst j. rewrite (w_blob _ _ _ _ _ _ _ HK) in B. apply W in B.
        destruct (C4 Wm) as [C5 _]. lia.
      + unfold bind in E. unfold clean_from_cache, bind in E. destruct (clean_blobs_same (x_files idx) s1) as (A1 & A2 & A3 & A4 & _). pose proof (clean_blobs_fewer (x_files idx) s1) as A5.
        destruct (clean_blobs (x_files idx) s1) as [r sc]. cbn [fst snd] in *. subst r.
        assert (Bl : forall h i, s_blob sc h = Some i -> s_blob s h = Some i).
        { intros h i B. apply A5 in B. destruct R as (done & _ & HK & _). now rewrite (w_blob _ _ _ _ _ _ _ HK) in B. }
        assert (Own : forall q i, prefix d q -> s_file sc q = Some i -> List.length (s_inodes s) <= i < List.length (s_inodes sc)).
        { intros q i Pq F. rewrite A2 in F. rewrite A3. destruct R as (done & Hd & HK & _). destruct (in_dec path_eq_dec q (map (tgt d) done)) as [H|H].
          - apply in_map_iff in H. destruct H as (y & <- & Hy). destruct (w_done _ _ _ _ _ _ _ HK y Hy) as (i' & c & m & i0 & m0 & C1 & C2 & C3 & C4). assert (i' = i) by congruence. subst i'.
            split; [now apply C4|]. apply nth_error_Some. rewrite C2. discriminate.
          - rewrite (w_file _ _ _ _ _ _ _ HK _ H), (proj1 (V q Pq)) in F. discriminate. }
        assert (Wc : well_formed (set_index (tarball_key k) None sc)).
        { split; cbn [s_file s_inodes s_blob set_index].
          - intros q i F. destruct R as (done & Hd & HK & _). rewrite A3. rewrite A2 in F. destruct (in_dec path_eq_dec q (map (tgt d) done)) as [H|H].
            + apply in_map_iff in H. destruct H as (y & <- & Hy). destruct (w_done _ _ _ _ _ _ _ HK y Hy) as (i' & c & m & i0 & m0 & C1 & C2 & C3 & C4). assert (i' = i) by congruence. subst i'. apply nth_error_Some. rewrite C2. discriminate.
            + rewrite (w_file _ _ _ _ _ _ _ HK _ H) in F. apply W in F. pose proof (w_len _ _ _ _ _ _ _ HK). lia.
          - intros h i B. apply Bl in B. apply W in B. destruct R as (done & Hd & HK & _). pose proof (w_len _ _ _ _ _ _ _ HK). rewrite A3. lia. }
        apply (Net (set_index (tarball_key k) None sc) Wc).
        * intros q h i Pq F B. apply (Own q i Pq) in F. apply Bl in B. apply W in B. lia.
        * exact (left_wf xxh manifest d x (entries bytes) (order idx) s s1 P C V (Ho idx) R (set_index (tarball_key k) None sc) A2 A3).
        * exact (left_share xxh manifest d x (entries bytes) (order idx) s s1 P C V (Ho idx) R (set_index (tarball_key k) None sc) A2 A3).
        * exact E.
        * intros [_ Hf]. rewrite Hf in E. discriminate.
  Qed.

  (** ** C49 *)
  (** C49. An intact archive of a usable package is always extracted to a free place, in any mode. *)
  Theorem C49_total : forall ev order d sri x bytes s,
    proper (entries bytes) -> coherent (entries bytes) -> no_collision xxh (contents_of (entries bytes)) -> free_place d s ->
    (forall k, sri = Some k -> s_index s (tarball_key k) = None) ->
    received ev = Some bytes -> (forall k, sri = Some k -> check k bytes = true) -> intact untar bytes -> usable manifest (entries bytes) ->
    exists k s', whole (Some ev) order d sri true x s = (Ok k, s') /\ holds_package d (entries bytes) s' /\ holds_dirs d (entries bytes) s'.
  Proof.
    intros ev order d sri x bytes s P [C1 C2] N (Nd & V & Nf) Hi R Ck [I1 I2] [U1 U2].
    destruct (fresh_total check limit xxh linkable reflinkable blob_mode untar manifest ev order d sri true x bytes s eq_refl P N V Nd Nf C1 C2 Hi R Ck I1 I2 U1) as (k & s' & E).
    - eapply Forall_impl; [|exact U2]. intros b (H1 & f & H2 & H3). split; [now apply rel_tame|]. exists f. split; [exact H2|]. now rewrite rel_names_ok.
    - exists k, s'. split; [exact E|]. destruct (C24_fresh ev order d sri true x bytes s k s' (fun _ => Hi) P N V R E) as [A B]. split; [exact A|]. apply B. now split.
  Qed.
End Props.

(** ** concrete cases. Oracles: a content is its own hash, an integrity is the bytes themselves. *)
Definition ex_check (i r : string) : bool := String.eqb i r.
Definition ex_xxh (c : string) : string := c.
Definition ex_entry (p c : string) (m : nat) : entry := mkEntry p None (Some m) true (Some c).
Definition ex_tool : list entry := [ex_entry "package/package.json" "{tool}" 420; ex_entry "package/lib/a.js" "a" 420; ex_entry "package/bin/cli.js" "cli" 420].
Definition ex_native : list entry := [ex_entry "package/lib/a.js" "a" 420; ex_entry "package/package.json" "{native}" 420; ex_entry "package/binding.gyp" "g" 420].
Definition ex_flat : list entry := [ex_entry "package/package.json" "{}" 420; ex_entry "package/index.js" "i" 420].
Definition ex_nflat : list entry := [ex_entry "package/index.js" "i" 420; ex_entry "package/binding.gyp" "g" 420; ex_entry "package/package.json" "{native}" 420].
Definition ex_untar (b : string) : list entry * bool :=
  if String.eqb b "tool.tgz" then (ex_tool, true)
  else if String.eqb b "native.tgz" then (ex_native, true)
  else if String.eqb b "nflat.tgz" then (ex_nflat, true)
  else if String.eqb b "flat.tgz" then (ex_flat, true)
  else if String.eqb b "evil.tgz" then ([ex_entry "package/../../evil" "boom" 420], true)
  else if String.eqb b "twice.tgz" then ([ex_entry "package/x" "one" 420; ex_entry "package/x" "two" 420], true)
  else if String.eqb b "exec.tgz" then ([ex_entry "package/run" "i" 493], true)
  else if String.eqb b "odd.tgz" then ([ex_entry "package/package.json" "{odd}" 420; ex_entry "package/bin/cli.js" "cli" 420], true)
  else if String.eqb b "nobin.tgz" then ([ex_entry "package/package.json" "{tool}" 420], true)
  else ([], false).
Definition ex_manifest (t : string) : option (bool * list string) :=
  if String.eqb t "{tool}" then Some (false, ["bin/cli.js"]) else if String.eqb t "{native}" then Some (true, []) else if String.eqb t "{odd}" then Some (false, ["bin//cli.js"]) else Some (false, []).
Definition ex_order (i : tindex) := x_files i.
Definition ex_whole bm := extract_to_dir ex_check 3 ex_xxh true false bm ex_untar ex_manifest.
Definition ex_root : st := mkSt (fun p => match p with [] => true | ["nm"] => true | _ => false end) (fun _ => None) [] (fun _ => None) (fun _ => None).
Definition ex_ev (b : string) : option (list event) := Some [Chunk (substring 0 2 b); Chunk (substring 2 100 b)].
Definition ex_cold bm b d x s := ex_whole bm (ex_ev b) ex_order d (Some b) true x s.
Definition ex_warm bm b d x s := ex_whole bm None ex_order d (Some b) true x s.
Definition ex_at {A} (r : res err A * st) (p : path) := file_at (snd r) p.

Lemma ex_order_perm : forall idx, Permutation (x_files idx) (ex_order idx).
Proof. intros idx. apply Permutation_refl. Qed.
Lemma ex_no_collision l : no_collision ex_xxh l.
Proof. intros a b _ _ H. exact H. Qed.
Lemma ex_root_free d : d <> [] -> d <> ["nm"] -> free_place d ex_root.
Proof.
  intros N1 N2. split; [exact N1|]. split; [|reflexivity]. intros q Hq. split; [reflexivity|]. cbn. destruct q as [|y [|z q]]; intros H; try discriminate.
  - apply prefix_nil in Hq. congruence.
  - destruct Hq as [r E]. destruct d as [|d0 d]; [contradiction|]. cbn in E. injection E as -> E. destruct d; [|discriminate]. destruct r; [|discriminate]. reflexivity.
  - destruct y as [|a y]; [discriminate|]. exfalso. revert H. repeat (destruct a as [[] [] [] [] [] [] [] []]; try discriminate; destruct y as [|a y]; try discriminate).
Qed.
Lemma ex_root_wf : well_formed ex_root.
Proof. split; discriminate. Qed.
Lemma in3 A (P : A -> Prop) l : Forall P l -> forall f, In f l -> P f.
Proof. apply Forall_forall. Qed.
Lemma ex_tool_ok : proper ex_tool /\ coherent ex_tool /\ usable ex_manifest ex_tool /\ intact ex_untar "tool.tgz".
Proof.
  split; [|split; [|split]].
  - split; [repeat (constructor; [intros _ H; vm_compute in H; repeat (destruct H as [H|H]; [discriminate|]); exact H|]); constructor|].
    vm_compute. repeat (constructor; [intros H; repeat (destruct H as [H|H]; [discriminate|]); exact H|]). constructor.
  - split; [apply in3; vm_compute; repeat constructor; discriminate|]. intros f g Hf Hg. vm_compute in Hf, Hg.
    repeat (destruct Hf as [<-|Hf]; [repeat (destruct Hg as [<-|Hg]; [intros [r E]; cbn in *; try reflexivity; discriminate|]); contradiction|]); contradiction.
  - split; [vm_compute; discriminate|]. constructor; [|constructor]. split; [intros H; vm_compute in H; repeat (destruct H as [H|H]; [discriminate|]); exact H|].
    exists (["bin"; "cli.js"], ("cli", 420)). split; [vm_compute; auto|reflexivity].
  - split; [reflexivity|]. vm_compute. repeat constructor; discriminate.
Qed.
(** C21, C23, C24, C49: a tool with a bin, extracted from the tarball into /nm/tool, copying; then from the cache into /nm/b/tool, offline: the
    hypotheses hold, and so the same files with the same modes; other bytes change nothing *)
Example C24_example :
  let r1 := ex_cold 420 "tool.tgz" ["nm"; "tool"] Auto ex_root in
  let s1 := snd r1 in
  fst r1 = Ok "tool.tgz" /\ proper ex_tool /\ coherent ex_tool /\ usable ex_manifest ex_tool /\ intact ex_untar "tool.tgz" /\ free_place ["nm"; "tool"] ex_root /\
  genuine ex_xxh true false 420 ex_untar ex_manifest "tool.tgz" "tool.tgz" s1 /\
  ex_at r1 ["nm"; "tool"; "bin"; "cli.js"] = Some ("cli", 493) /\ ex_at r1 ["nm"; "tool"; "lib"; "a.js"] = Some ("a", 420) /\
  fst (ex_warm 420 "tool.tgz" ["nm"; "b"; "tool"] Auto s1) = Ok "tool.tgz" /\
  ex_at (ex_warm 420 "tool.tgz" ["nm"; "b"; "tool"] Auto s1) ["nm"; "b"; "tool"; "bin"; "cli.js"] = Some ("cli", 493) /\
  ex_whole 420 (Some [Chunk "too"; Chunk "l.tgX"]) ex_order ["nm"; "tool"] (Some "tool.tgz") true Auto ex_root = (Err EIntegrity, ex_root).
Proof.
  cbv zeta. split; [vm_compute; reflexivity|]. destruct ex_tool_ok as (A & B & C & D). split; [exact A|]. split; [exact B|]. split; [exact C|]. split; [exact D|].
  split; [apply ex_root_free; discriminate|]. split.
  - exists ["nm"; "tool"], (Some "tool.tgz"), Auto, ex_root, (snd (ex_cold 420 "tool.tgz" ["nm"; "tool"] Auto ex_root)). split; [apply ex_root_free; discriminate|]. split; vm_compute; reflexivity.
  - repeat split; vm_compute; reflexivity.
Qed.

(** C22 fails for other archives: (1) ".." in an entry path leads out of the destination; (2) an archive with the same path twice, hard linked,
    overwrites the content file of the first in the cache; (3) extracting from the cache with hard links changes the mode
    of the files of other packages that share the content. *)
Theorem C22_refuted :
  (let r := ex_cold 420 "evil.tgz" ["nm"; "p"] Auto ex_root in fst r = Ok "evil.tgz" /\ ex_at r ["evil"] = Some ("boom", 420) /\ ~ confined ["nm"; "p"] ex_root (snd r))
  /\ (let r := ex_cold 420 "twice.tgz" ["nm"; "p"] Hardlink ex_root in fst r = Ok "twice.tgz" /\ cached_at (snd r) "one" = Some ("two", 420))
  /\ (let s1 := snd (ex_cold 420 "exec.tgz" ["nm"; "e"] Auto ex_root) in
      let s2 := snd (ex_cold 420 "flat.tgz" ["nm"; "p"] Hardlink s1) in
      let r := ex_warm 420 "exec.tgz" ["nm"; "e2"] Hardlink s2 in
      fst r = Ok "exec.tgz" /\ file_at s2 ["nm"; "p"; "index.js"] = Some ("i", 420) /\ ex_at r ["nm"; "p"; "index.js"] = Some ("i", 493)).
Proof.
  split; [|split].
  - cbv zeta. split; [vm_compute; reflexivity|]. split; [vm_compute; reflexivity|]. intros [H _ _ _]. specialize (H ["evil"]).
    assert (N : ~ prefix ["nm"; "p"] ["evil"]) by (intros [r E]; discriminate). specialize (H N). vm_compute in H. discriminate.
  - vm_compute. auto.
  - vm_compute. auto.
Qed.
(** C24 fails for modes in general: (1) content files of another mode than 0644 (cacache makes them from temporary files, 0600); (2) a bin path not
    written plainly; (3) without a cache, bins are not made executable at all; (4) with hard links, files of equal contents in the cache share a mode: the
    mode of a file depends on what other packages did. *)
Theorem C24_refuted :
  (let s1 := snd (ex_cold 384 "tool.tgz" ["nm"; "a"] Auto ex_root) in
   file_at s1 ["nm"; "a"; "bin"; "cli.js"] = Some ("cli", 457) /\ ex_at (ex_warm 384 "tool.tgz" ["nm"; "b"] Auto s1) ["nm"; "b"; "bin"; "cli.js"] = Some ("cli", 493))
  /\ (let s1 := snd (ex_cold 420 "odd.tgz" ["nm"; "a"] Auto ex_root) in
      file_at s1 ["nm"; "a"; "bin"; "cli.js"] = Some ("cli", 493) /\ ex_at (ex_warm 420 "odd.tgz" ["nm"; "b"] Auto s1) ["nm"; "b"; "bin"; "cli.js"] = Some ("cli", 420))
  /\ ex_at (ex_whole 420 (ex_ev "tool.tgz") ex_order ["nm"; "a"] (Some "tool.tgz") false Auto ex_root) ["nm"; "a"; "bin"; "cli.js"] = Some ("cli", 420)
  /\ (let s1 := snd (ex_cold 420 "flat.tgz" ["nm"; "p"] Hardlink ex_root) in
      let s2 := snd (ex_cold 420 "exec.tgz" ["nm"; "e"] Hardlink s1) in
      file_at s1 ["nm"; "p"; "index.js"] = Some ("i", 420) /\ ex_at (ex_warm 420 "flat.tgz" ["nm"; "q"] Hardlink s2) ["nm"; "q"; "index.js"] = Some ("i", 493)).
Proof. vm_compute. repeat split. Qed.

(** C25: the case of the theorem: the content file of index.js gone, a flat package *)
Definition ex_damage (h : string) (s : st) : st := set_blob h None s.
Example C25_example :
  let s := ex_damage "i" (snd (ex_cold 420 "flat.tgz" ["nm"; "p"] Auto ex_root)) in
  fst (ex_warm 420 "flat.tgz" ["nm"; "q"] Auto s) = Err EFetch /\
  fst (ex_cold 420 "flat.tgz" ["nm"; "q"] Auto s) = Ok "flat.tgz" /\ ex_at (ex_cold 420 "flat.tgz" ["nm"; "q"] Auto s) ["nm"; "q"; "index.js"] = Some ("i", 420) /\
  cached_at (snd (ex_cold 420 "flat.tgz" ["nm"; "q"] Auto s)) "i" = Some ("i", 420).
Proof. vm_compute. auto. Qed.
(** C25 fails as stated: (1) a package with subdirectories: the failed attempt has made a directory, and making it again is an error, so there
    is no fallback; (2) an index entry that does not decode is never dropped: every extraction fails until the cache is cleared; (3) dropping an entry removes
    content files that other packages share, so that they need the network again. *)
Theorem C25_refuted :
  (let s := ex_damage "cli" (snd (ex_cold 420 "tool.tgz" ["nm"; "p"] Auto ex_root)) in
   fst (ex_cold 420 "tool.tgz" ["nm"; "q"] Auto s) = Err EIo)
  /\ (let s := set_index (tarball_key "tool.tgz") (Some None) ex_root in ex_cold 420 "tool.tgz" ["nm"; "q"] Auto s = (Err EParse, s))
  /\ (let s := ex_damage "{}" (snd (ex_cold 420 "exec.tgz" ["nm"; "e"] Auto (snd (ex_cold 420 "flat.tgz" ["nm"; "p"] Auto ex_root)))) in
      fst (ex_warm 420 "exec.tgz" ["nm"; "e2"] Auto s) = Ok "exec.tgz" /\
      fst (ex_warm 420 "exec.tgz" ["nm"; "e2"] Auto (snd (ex_warm 420 "flat.tgz" ["nm"; "q"] Auto s))) = Err EFetch).
Proof. split; [vm_compute; reflexivity|]. split; [reflexivity|]. vm_compute. auto. Qed.

(** C48: hard linking was asked for; the package has install scripts: its files are its own, except package.json (the program could
    corrupt the cache by writing to it) *)
Example C48_example : let r := ex_cold 420 "native.tgz" ["nm"; "p"] Hardlink ex_root in
  fst r = Ok "native.tgz" /\ scripts_of ex_manifest ex_native = true /\ s_file (snd r) ["nm"; "p"; "lib"; "a.js"] <> s_blob (snd r) "a" /\
  (let r2 := ex_warm 420 "native.tgz" ["nm"; "q"] Hardlink (snd r) in fst r2 = Ok "native.tgz" /\ s_file (snd r2) ["nm"; "q"; "package.json"] <> s_blob (snd r2) "{native}") /\
  (let t := ex_cold 420 "flat.tgz" ["nm"; "p"] Hardlink ex_root in s_file (snd t) ["nm"; "p"; "index.js"] = s_blob (snd t) "i").
Proof. vm_compute. repeat split; discriminate. Qed.
(** the fallback: a package with install scripts, in the cache but for the content of binding.gyp, extracted again with the network, hard linking asked for *)
Example C48_fallback_example :
  let s := ex_damage "g" (snd (ex_cold 420 "nflat.tgz" ["nm"; "p"] Hardlink ex_root)) in let r := ex_cold 420 "nflat.tgz" ["nm"; "q"] Hardlink s in
  fst (ex_warm 420 "nflat.tgz" ["nm"; "q"] Hardlink s) = Err EFetch /\
  fst r = Ok "nflat.tgz" /\ cached_at (snd r) "i" = Some ("i", 420) /\ s_file (snd r) ["nm"; "q"; "index.js"] <> s_blob (snd r) "i" /\
  s_file (snd r) ["nm"; "q"; "binding.gyp"] <> s_blob (snd r) "g" /\ ex_at r ["nm"; "q"; "index.js"] = Some ("i", 420).
Proof. vm_compute. repeat split; discriminate. Qed.
Theorem C48_refuted : let r := ex_cold 420 "native.tgz" ["nm"; "p"] Hardlink ex_root in
  fst r = Ok "native.tgz" /\ scripts_of ex_manifest ex_native = true /\ shared (snd r) ["nm"; "p"; "package.json"].
Proof. cbv zeta. split; [vm_compute; reflexivity|]. split; [vm_compute; reflexivity|]. exists "{native}". eexists. split; vm_compute; reflexivity. Qed.
(** C49 does not extend to packages whose manifest names a bin that is not in the archive: nothing but the executable bit depends on it, but
    extraction fails *)
Theorem C49_refuted : fst (ex_cold 420 "nobin.tgz" ["nm"; "p"] Auto ex_root) = Err EIo /\ intact ex_untar "nobin.tgz".
Proof. split; [vm_compute; reflexivity|]. split; [reflexivity|]. vm_compute. repeat constructor. discriminate. Qed.

Print Assumptions C21_integrity.
Print Assumptions C21_checked.
Print Assumptions C22_confined_partial.
Print Assumptions C23_spill.
Print Assumptions C23_chunks.
Print Assumptions C24_fresh.
Print Assumptions C24_again.
Print Assumptions C24_modes_partial.
Print Assumptions C25_sound_partial.
Print Assumptions C25_falls_back_partial.
Print Assumptions C48_own_storage_partial.
Print Assumptions C49_total.
Print Assumptions C22_refuted.
Print Assumptions C24_refuted.
Print Assumptions C25_refuted.
Print Assumptions C48_refuted.
Print Assumptions C49_refuted.
