(** * Extraction after extraction: what every operation keeps, and what it writes to the index of the cache *)
From Verif Require Import Base Types StdPath Fs TarModel TarStream TarProofs TarContents TarWarm TarPlain TarTotal TarConfine TarSpec TarThms TarCache.
From Coq Require Import Permutation.
Open Scope string_scope.
Open Scope list_scope.

Section Keep.
  Variable check : string -> string -> bool.
  Variable limit : nat.
  Variable xxh : string -> string.
  Variables linkable reflinkable : bool.
  Variable blob_mode : nat.
  Variable untar : string -> list entry * bool.
  Variable manifest : string -> option (bool * list string).
  Notation tarball := (extract_tarball xxh linkable reflinkable blob_mode untar manifest).
  Notation stream := (extract_stream check limit xxh linkable reflinkable blob_mode untar manifest).
  Notation whole := (extract_to_dir check limit xxh linkable reflinkable blob_mode untar manifest).
  Notation fetched := (fetch_extract check limit xxh linkable reflinkable blob_mode untar manifest).
  Notation index_of := (index_of xxh manifest).
  Notation entries := (entries untar).
  Notation efc := (extract_from_cache xxh linkable reflinkable).

  (** the contents that may be anywhere *)
  Variable U : string -> Prop.
  Hypothesis U_empty : U "".
  Definition fine (s : st) : Prop := well_formed s /\ Forall (fun v => U (fst v)) (s_inodes s).
  Definition fine_at (I : string -> option (option tindex)) (s : st) : Prop := fine s /\ s_index s = I.
  Definition kept {A} (P : st -> Prop) (m : op A) : Prop := forall s, P s -> P (snd (m s)).

  Lemma kept_ret A P (a : A) : kept P (ret a). Proof. intros s H. exact H. Qed.
  Lemma kept_fail A P e : kept P (@fail A e). Proof. intros s H. exact H. Qed.
  Lemma kept_bind A B P (m : op A) (f : A -> op B) : kept P m -> (forall a, kept P (f a)) -> kept P (bind m f).
  Proof. intros Hm Hf s H. specialize (Hm s H). unfold bind. destruct (m s) as [[a|e|] s1]; cbn in *; [now apply Hf|exact Hm|exact Hm]. Qed.
  Lemma kept_or A P (m n : op A) : kept P m -> kept P n -> kept P (or_else m n).
  Proof. intros Hm Hn s H. specialize (Hm s H). unfold or_else. destruct (m s) as [[a|e|] s1]; cbn in *; auto. Qed.

  Lemma fine_file s p o : fine s -> (forall i, o = Some i -> i < List.length (s_inodes s)) -> fine (set_file p o s).
  Proof.
    intros [[W1 W2] Hu] Ho. split; [|exact Hu]. split; [|exact W2]. intros q i. cbn. unfold upd. destruct (path_eq_dec q p); [apply Ho|apply W1].
  Qed.
  Lemma fine_new s c m : fine s -> U c -> fine (set_inodes (s_inodes s ++ [(c, m)]) s).
  Proof.
    intros [[W1 W2] Hu] Hc. split; [|cbn; apply Forall_app; split; [exact Hu|repeat constructor; exact Hc]].
    split; cbn; intros q i H; rewrite app_length; [apply W1 in H|apply W2 in H]; lia.
  Qed.
  Lemma fine_over s j c m : fine s -> U c -> fine (set_inodes (lset (s_inodes s) j (c, m)) s).
  Proof.
    intros [[W1 W2] Hu] Hc. split; [split; cbn; intros q i H; rewrite lset_length; [now apply (W1 q)|now apply (W2 q)]|].
    cbn. clear W1 W2. revert j. induction Hu as [|v l Hv Hl IH]; intros j; [constructor|]. destruct j as [|j]; cbn; constructor; auto.
  Qed.
  Lemma fine_nth s i c m : fine s -> nth_error (s_inodes s) i = Some (c, m) -> U c /\ i < List.length (s_inodes s).
  Proof.
    intros [_ Hu] H. split; [rewrite Forall_forall in Hu; exact (Hu _ (nth_error_In _ _ H))|]. apply nth_error_Some. rewrite H. discriminate.
  Qed.
  Lemma fine_blob s h i c m : fine s -> blob xxh h s = Some (i, c, m) -> U c /\ i < List.length (s_inodes s).
  Proof. intros F B. apply blob_spec in B. destruct B as (_ & B & _). now apply (fine_nth s i c m). Qed.

  Section At.
    Variable I : string -> option (option tindex).
    Notation P := (fine_at I).
    Lemma kept_hard_link h p : kept P (hard_link xxh linkable h p).
    Proof.
      intros s [F E]. unfold hard_link. destruct (blob xxh h s) as [[[i c] m]|] eqn:B; [|now split]. destruct (fine_blob _ _ _ _ _ F B) as [Uc Hi].
      destruct (linkable && negb (exists_at s p) && parent_ok s p); [|now split]. split; [|exact E]. apply fine_file; [exact F|]. intros ? [= <-]. exact Hi.
    Qed.
    Lemma kept_reflink h p : kept P (reflink xxh reflinkable h p).
    Proof.
      intros s [F E]. unfold reflink. destruct (blob xxh h s) as [[[i c] m]|] eqn:B; [|now split]. destruct (fine_blob _ _ _ _ _ F B) as [Uc Hi].
      destruct (reflinkable && negb (exists_at s p) && parent_ok s p); [|now split]. cbn. split; [|exact E]. apply fine_file; [now apply fine_new|].
      intros ? [= <-]. cbn. rewrite app_length. cbn. lia.
    Qed.
    Lemma kept_copy h p : kept P (copy xxh h p).
    Proof.
      intros s [F E]. unfold copy. destruct (blob xxh h s) as [[[i c] m]|] eqn:B; [|now split]. destruct (fine_blob _ _ _ _ _ F B) as [Uc Hi].
      destruct (s_dir s p); [now split|]. destruct (s_file s p) as [j|].
      - split; [|exact E]. apply fine_over; [exact F|]. destruct (Nat.eqb i j); assumption.
      - destruct (parent_ok s p); [|now split]. cbn. split; [|exact E]. apply fine_file; [now apply fine_new|]. intros ? [= <-]. cbn. rewrite app_length. cbn. lia.
    Qed.
    Lemma kept_chmod f p : kept P (chmod f p).
    Proof.
      intros s [F E]. unfold chmod. destruct (s_file s p) as [i|]; [|destruct (s_dir s p); now split]. destruct (nth_error (s_inodes s) i) as [[c m]|] eqn:N; [|now split].
      split; [|exact E]. apply fine_over; [exact F|]. now apply (fine_nth s i c m).
    Qed.
    Lemma kept_efc h p x mode : kept P (efc h p x mode).
    Proof.
      apply kept_bind; [|intros _; destruct (Nat.eqb mode m644); [apply kept_ret|apply kept_chmod]].
      destruct x; repeat apply kept_or; try apply kept_hard_link; try apply kept_reflink; apply kept_copy.
    Qed.
    Lemma kept_write c : U c -> kept P (write_blob xxh blob_mode c).
    Proof.
      intros Uc s [F E]. cbn. split; [|exact E]. pose proof (fine_new s c blob_mode F Uc) as [[W1 W2] Hu]. split; [|exact Hu]. split; [exact W1|].
      intros h i. cbn. unfold supd. destruct (String.eqb h (xxh c)); [|apply W2]. intros [= <-]. cbn. rewrite app_length. cbn. lia.
    Qed.
    Lemma kept_remove p : kept P (remove_file p).
    Proof. intros s [F E]. unfold remove_file. destruct (s_file s p); [|now split]. split; [|exact E]. apply fine_file; [exact F|discriminate]. Qed.
    Lemma kept_read p : kept P (read_file p).
    Proof. intros s H. unfold read_file. destruct (s_file s p); [|exact H]. destruct (nth_error _ _) as [[c m]|]; exact H. Qed.
    Lemma fine_dir q s : P s -> P (set_dir q s).
    Proof. intros H. exact H. Qed.
    Lemma kept_mkdirp p created : kept P (mkdirp_op p created).
    Proof.
      intros s H. change (mkdirp_op p created s) with (mkdirp p created s). unfold mkdirp. destruct (known p created); [exact H|]. destruct (match p with [] => true | _ => _ end).
      - unfold create_dir. destruct (negb _ && _); exact H.
      - assert (G : forall l done s, P s -> P (snd (create_all_from done l s))).
        { clear. induction l as [|c l IH]; intros done s H; cbn [create_all_from]; [exact H|]. destruct (s_dir s _); [now apply IH|]. destruct (exists_at s _); [exact H|]. apply IH. exact H. }
        unfold create_dir_all. specialize (G p [] s H). destruct (create_all_from [] p s) as [[a|e|] s2]; exact G.
    Qed.
    Lemma kept_recopy d files x : kept P (recopy xxh linkable reflinkable d files x).
    Proof.
      induction files as [|[e [h m]] t IH]; cbn [recopy]; [apply kept_ret|]. apply kept_bind; [apply kept_remove|]. intros _. apply kept_bind; [apply kept_efc|]. intros _. exact IH.
    Qed.
    Lemma kept_entry d cached e l : (forall c, e_regular e = true -> e_data e = Some c -> U c) -> kept P (extract_entry xxh linkable reflinkable blob_mode manifest d cached e l).
    Proof.
      intros Hu. unfold extract_entry. destruct (e_regular e); [|destruct (e_data e); [apply kept_ret|apply kept_fail]]. apply kept_bind; [apply kept_mkdirp|]. intros created. destruct cached.
      - destruct (e_data e) as [c|]; [|apply kept_fail]. apply kept_bind; [apply kept_write; now apply Hu|]. intros h. apply kept_bind; [apply kept_efc|]. intros _. cbv zeta.
        destruct (String.eqb _ "package.json"); [|apply kept_ret]. apply kept_bind; [apply kept_read|]. intros text. destruct (manifest text) as [[[] bins]|]; [| |apply kept_fail].
        + destruct (is_copy (l_mode l)); [apply kept_ret|]. apply kept_bind; [apply kept_recopy|]. intros _. apply kept_ret.
        + apply kept_ret.
      - intros s [F E]. destruct (negb _ && _); [|now split]. cbn. split; [|exact E]. apply fine_file.
        + apply fine_new; [exact F|]. destruct (e_data e); [now apply Hu|exact U_empty].
        + intros ? [= <-]. cbn. rewrite app_length. cbn. lia.
    Qed.
    Lemma kept_entries d cached es : forall l, (forall e c, In e es -> e_regular e = true -> e_data e = Some c -> U c) -> kept P (extract_entries xxh linkable reflinkable blob_mode manifest d cached es l).
    Proof.
      induction es as [|e es IH]; intros l Hu; cbn [extract_entries]; [apply kept_ret|]. apply kept_bind; [apply kept_entry; intros c; apply Hu; now left|].
      intros l'. apply IH. intros e' c He. apply Hu. now right.
    Qed.
    Lemma kept_bins d bins : kept P (mark_bins d bins).
    Proof. induction bins as [|b t IH]; cbn [mark_bins]; [apply kept_ret|]. apply kept_bind; [apply kept_chmod|]. intros _. exact IH. Qed.
    Lemma kept_warm_files d bins files x : forall created, kept P (warm_files xxh linkable reflinkable d bins files x created).
    Proof.
      induction files as [|[e [h m]] t IH]; intros created; cbn [warm_files]; [apply kept_ret|]. apply kept_bind; [apply kept_mkdirp|]. intros c. apply kept_bind; [apply kept_efc|]. intros _. apply IH.
    Qed.
    Lemma kept_warm d idx files x : kept P (warm xxh linkable reflinkable d idx files x).
    Proof. apply kept_warm_files. Qed.
    Lemma kept_clean files : kept P (clean_blobs files).
    Proof.
      induction files as [|[e [h m]] t IH]; cbn [clean_blobs]; [apply kept_ret|]. intros s [[[W1 W2] Hu] E]. apply IH. split; [|exact E]. split; [|exact Hu]. split; [exact W1|].
      intros k i. cbn. unfold supd. destruct (String.eqb k h); [discriminate|apply W2].
    Qed.
  End At.
  Lemma fine_index k o s : fine s -> fine (set_index k o s).
  Proof. intros [W Hu]. split; [exact W|exact Hu]. Qed.

  (** what arrives *)
  Definition archive_ok (bytes : string) : Prop := proper (entries bytes) /\ Forall U (contents_of (entries bytes)).
  Lemma archive_data bytes : archive_ok bytes -> forall e c, In e (entries bytes) -> e_regular e = true -> e_data e = Some c -> U c.
  Proof.
    intros [_ Hu] e c He R D. rewrite Forall_forall in Hu. apply Hu. unfold contents_of. apply in_map_iff. exists (inner_path (e_path e), (c, Nat.lor (match e_mode e with Some m => m | None => 420 end) 384)). split; [reflexivity|].
    unfold package_files. apply in_flat_map. exists e. split; [exact He|]. rewrite R, D. now left.
  Qed.
  (** a failure keeps the index; a success adds one entry *)
  Lemma tarball_keeps d sri cached x bytes s : fine s -> archive_ok bytes ->
    fine (snd (tarball d sri cached x bytes s)) /\ match tarball d sri cached x bytes s with
      | (Ok k, s') => k = match sri with Some i => i | None => xxh bytes end /\ (if cached then exists e, s_index s' = supd (tarball_key k) (Some (Some e)) (s_index s) else s_index s' = s_index s)
      | (_, s') => s_index s' = s_index s end.
  Proof.
    intros F A. pose proof (archive_data bytes A) as Hd. unfold entries in Hd. unfold extract_tarball. destruct (untar bytes) as [es clean]. cbn [fst snd] in *.
    assert (F0 : fine_at (s_index s) s) by now split. set (I := s_index s) in *. clearbody I. clear F.
    match goal with |- context [bind (mkdirp_op (map CNormal d) []) ?f] => set (rest := f) end. unfold bind.
    pose proof (kept_mkdirp I (map CNormal d) [] s F0) as F1. destruct (mkdirp_op (map CNormal d) [] s) as [[cr|er|] sa]; cbn [snd] in F1; [|cbn; destruct F1 as [F1 ->]; now split ..].
    unfold rest. clear rest. match goal with |- context [bind (extract_entries ?a ?b ?c ?d ?e ?f ?g ?h ?i) ?k] => set (rest := k) end. unfold bind.
    pose proof (kept_entries I d cached es (mkLoop cr x (mkIdx false [] []) None) Hd sa F1) as F2.
    destruct (extract_entries _ _ _ _ _ _ _ _ _ sa) as [[lo|er|] sb]; cbn [snd] in F2; [|cbn; destruct F2 as [F2 ->]; now split ..].
    unfold rest. clear rest. destruct (negb clean); [destruct F2 as [F2 E2]; cbn; now split|]. cbv zeta.
    unfold bind. pose proof (kept_bins I d (match l_mani lo with Some (_, b) => b | None => [] end) sb F2) as F3. destruct (mark_bins _ _ sb) as [[u|er|] sc]; cbn [snd] in F3; [|cbn; destruct F3 as [F3 ->]; now split ..].
    destruct F3 as [F3 E3]. destruct cached; cbn [fst snd].
    - split; [now apply fine_index|]. split; [reflexivity|]. eexists. cbn [ret fst snd s_index set_index]. rewrite E3. reflexivity.
    - split; [exact F3|]. split; [reflexivity|]. exact E3.
  Qed.
End Keep.

Section Steps.
  Variable check : string -> string -> bool.
  Variable limit : nat.
  Variable xxh : string -> string.
  Variables linkable reflinkable : bool.
  Variable blob_mode : nat.
  Variable untar : string -> list entry * bool.
  Variable manifest : string -> option (bool * list string).
  Notation tarball := (extract_tarball xxh linkable reflinkable blob_mode untar manifest).
  Notation whole := (extract_to_dir check limit xxh linkable reflinkable blob_mode untar manifest).
  Notation fetched := (fetch_extract check limit xxh linkable reflinkable blob_mode untar manifest).
  Notation index_of := (index_of xxh manifest).
  Notation entries := (entries untar).
  (** the archives that may arrive, the contents that may be anywhere *)
  Variables A U : string -> Prop.
  Hypothesis U_empty : U "".
  Hypothesis U_hash : forall a b, U a -> U b -> xxh a = xxh b -> a = b.
  Hypothesis A_ok : forall bytes, A bytes -> proper (entries bytes) /\ Forall U (contents_of (entries bytes)).
  Hypothesis A_one : forall k a b, A a -> A b -> check k a = true -> check k b = true -> a = b.
  Hypothesis A_own : forall a, A a -> check (xxh a) a = true.

  (** each entry of the index is for some archive that matches it *)
  Definition sound (s : st) : Prop := forall key idx, s_index s key = Some (Some idx) -> exists k bytes, key = tarball_key k /\ A bytes /\ check k bytes = true /\ idx = index_of (entries bytes).
  Lemma key_inj a b : tarball_key a = tarball_key b -> a = b.
  Proof. unfold tarball_key. intros H. cbn in H. injection H as H. exact H. Qed.
  Lemma U_clear es s : Forall U (contents_of es) -> fine U s -> no_collision xxh (contents_of es ++ map fst (s_inodes s)).
  Proof.
    intros H [_ F] a b Ha Hb. rewrite Forall_forall in H, F. assert (G : forall c, In c (contents_of es ++ map fst (s_inodes s)) -> U c).
    { intros c Hc. apply in_app_or in Hc. destruct Hc as [Hc|Hc]; [now apply H|]. apply in_map_iff in Hc. destruct Hc as (v & <- & Hv). now apply F. }
    apply U_hash; now apply G.
  Qed.
  Lemma U_same es : proper es -> Forall U (contents_of es) -> forall a b, In a (items es) -> In b (items es) -> xxh (i_data a) = xxh (i_data b) -> i_data a = i_data b.
  Proof. intros [P _] H a b Ha Hb. rewrite Forall_forall in H. apply U_hash; apply H; now apply item_content. Qed.

  (** one archive, a destination where files of the package share storage only if they are equal *)
  Lemma tarball_step d sri cached x bytes s : fine U s -> sound s -> A bytes -> (forall k, sri = Some k -> check k bytes = true) ->
    (forall it i, In it (items (entries bytes)) -> s_file s (tgt d it) = Some i -> i < List.length (s_inodes s)) ->
    (forall a b i, In a (items (entries bytes)) -> In b (items (entries bytes)) -> s_file s (tgt d a) = Some i -> s_file s (tgt d b) = Some i -> i_data a = i_data b) ->
    fine U (snd (tarball d sri cached x bytes s)) /\ sound (snd (tarball d sri cached x bytes s)).
  Proof.
    intros F So Ha Hk Hw Hs. destruct (A_ok bytes Ha) as [P Hu]. destruct (proper_items _ P) as [T D].
    destruct (tarball_keeps xxh linkable reflinkable blob_mode untar manifest U U_empty d sri cached x bytes s F (conj P Hu)) as [F2 K].
    pose proof (cold_result xxh linkable reflinkable blob_mode manifest d s (items (entries bytes)) T D (U_same _ P Hu) Hw Hs untar sri x bytes eq_refl) as R.
    split; [exact F2|]. destruct cached.
    - destruct (tarball d sri true x bytes s) as [[k|er|] s']; cbn [snd] in *; [|intros key idx; rewrite K; apply So ..].
      destruct R as (Ek & _ & _ & _ & sk & HK & _ & ->). intros key idx. cbn [s_index set_index]. unfold supd. rewrite (k_index _ _ _ _ _ _ _ HK). destruct (String.eqb_spec key (tarball_key k)) as [->|_]; [|apply So].
      intros [= <-]. exists k, bytes. split; [reflexivity|]. split; [exact Ha|]. split; [|reflexivity]. rewrite Ek. destruct sri as [i|]; [now apply Hk|now apply A_own].
    - intros key idx. replace (s_index (snd (tarball d sri false x bytes s))) with (s_index s); [apply So|]. symmetry. destruct (tarball d sri false x bytes s) as [[k|er|] s']; cbn [snd]; apply K.
  Qed.
  Lemma fetched_step fetch d sri cached x s : fine U s -> sound s -> (forall ev r, fetch = Some ev -> received ev = Some r -> match sri with Some k => check k r = true | None => True end -> A r) ->
    (forall r it i, A r -> match sri with Some k => check k r = true | None => True end -> In it (items (entries r)) -> s_file s (tgt d it) = Some i -> i < List.length (s_inodes s)) ->
    (forall r a b i, A r -> match sri with Some k => check k r = true | None => True end -> In a (items (entries r)) -> In b (items (entries r)) -> s_file s (tgt d a) = Some i -> s_file s (tgt d b) = Some i -> i_data a = i_data b) ->
    fine U (snd (fetched fetch d sri cached x s)) /\ sound (snd (fetched fetch d sri cached x s)).
  Proof.
    intros F So Hf Hw Hs. unfold fetch_extract. destruct fetch as [ev|]; [|now split]. rewrite stream_unfold. destruct (received ev) as [r|] eqn:R; [|now split].
    destruct (match sri with Some i => check i r | None => true end) eqn:C; [|now split].
    assert (C' : match sri with Some k => check k r = true | None => True end) by (destruct sri; [exact C|exact I]). specialize (Hf ev r eq_refl R C').
    apply tarball_step; auto.
    - intros k ->. exact C.
    - intros it i. now apply Hw.
    - intros a b i. now apply Hs.
  Qed.
  (** one extraction, successful or not *)
  Lemma whole_step fetch order d sri cached x s : fine U s -> sound s -> vacant d s -> (forall idx, Permutation (x_files idx) (order idx)) ->
    (forall ev r, fetch = Some ev -> received ev = Some r -> match sri with Some k => check k r = true | None => True end -> A r) ->
    fine U (snd (whole fetch order d sri cached x s)) /\ sound (snd (whole fetch order d sri cached x s)).
  Proof.
    intros F So V Ho Hf.
    assert (FE : fine U (snd (fetched fetch d sri cached x s)) /\ sound (snd (fetched fetch d sri cached x s))).
    { apply fetched_step; auto.
      - intros r it i _ _ Hi H. destruct (vacant_tgt d s _ V it i Hi H).
      - intros r a b i _ _ Hi _ H _. destruct (vacant_tgt d s _ V a i Hi H). }
    unfold extract_to_dir. destruct sri as [k|]; [|exact FE]. destruct cached; [|exact FE]. destruct (s_index s (tarball_key k)) as [[idx|]|] eqn:X; [|now split|exact FE].
    destruct (So _ _ X) as (k' & bytes & Ek & Ha & Hk & ->). apply key_inj in Ek. subst k'. destruct (A_ok bytes Ha) as [P Hu].
    destruct (perm_files xxh manifest (entries bytes) _ (Ho _) P) as (T & D & _).
    pose proof (warm_result xxh linkable reflinkable d s (index_of (entries bytes)) (order (index_of (entries bytes))) x T D ltac:(intros it _; apply (V _ (prefix_app _ _))) (proj2 (proj1 F))) as R.
    pose proof (kept_warm xxh linkable reflinkable U U_empty (s_index s) d (index_of (entries bytes)) (order (index_of (entries bytes))) x s (conj F eq_refl)) as K.
    destruct (warm _ _ _ d _ _ x s) as [[u|er|] s1]; cbn [snd] in *; [| |contradiction].
    - destruct K as [K1 K2]. split; [exact K1|]. intros key idx. rewrite K2. apply So.
    - unfold bind. unfold clean_from_cache, bind. destruct (clean_blobs_same (x_files (index_of (entries bytes))) s1) as (A1 & A2 & A3 & A4 & _).
      pose proof (kept_clean U (s_index s) (x_files (index_of (entries bytes))) s1 K) as K3.
      destruct (clean_blobs _ s1) as [r sc]. cbn [fst snd] in *. subst r. destruct K3 as [K3 K4].
      assert (Same : forall r, A r -> check k r = true -> r = bytes) by (intros r Hr Cr; exact (A_one k r bytes Hr Ha Cr Hk)).
      pose proof (U_clear (entries bytes) s Hu F) as C.
      apply fetched_step; [now apply fine_index| |exact Hf| |].
      + intros key idx. cbn [s_index set_index]. unfold supd. destruct (String.eqb key (tarball_key k)); [discriminate|]. rewrite K4. apply So.
      + intros r it i Hr Cr. rewrite (Same r Hr Cr). exact (left_wf xxh manifest d x (entries bytes) _ s s1 P C V (Ho _) R (set_index (tarball_key k) None sc) A2 A3 it i).
      + intros r a b i Hr Cr. rewrite (Same r Hr Cr). exact (left_share xxh manifest d x (entries bytes) _ s s1 P C V (Ho _) R (set_index (tarball_key k) None sc) A2 A3 a b i).
  Qed.
  (** what a success means *)
  Lemma whole_files fetch order d k cached x s k' s' : fine U s -> sound s -> vacant d s -> (forall idx, Permutation (x_files idx) (order idx)) ->
    (forall ev r, fetch = Some ev -> received ev = Some r -> check k r = true -> A r) ->
    whole fetch order d (Some k) cached x s = (Ok k', s') -> k' = k /\ exists bytes, A bytes /\ check k bytes = true /\ holds_package d (entries bytes) s'.
  Proof.
    intros F So V Ho Hf E.
    assert (B : exists bytes, A bytes /\ check k bytes = true).
    { assert (FE : forall ca s0, fetched fetch d (Some k) ca x s0 = (Ok k', s') -> exists bytes, A bytes /\ check k bytes = true).
      { intros ca s0. unfold fetch_extract. destruct fetch as [ev|]; [|discriminate]. rewrite stream_unfold. destruct (received ev) as [r|] eqn:R; [|discriminate].
        destruct (check k r) eqn:C; [|discriminate]. intros _. exists r. split; [exact (Hf ev r eq_refl R C)|exact C]. }
      unfold extract_to_dir in E. destruct cached; [|now apply FE in E]. destruct (s_index s (tarball_key k)) as [[idx|]|] eqn:X; [|discriminate|now apply FE in E].
      destruct (So _ _ X) as (k2 & bytes & Ek & Ha & Hk & _). apply key_inj in Ek. subst k2. eauto. }
    destruct B as (bytes & Ha & Hk). destruct (A_ok bytes Ha) as [P Hu].
    destruct (whole_contents check limit xxh linkable reflinkable blob_mode untar manifest fetch order d k cached x bytes s k' s' P (U_clear _ s Hu F) V (proj1 F)) as [Ek Hp]; auto.
    - intros ev b Ef Er Cb. exact (A_one k b bytes (Hf ev b Ef Er Cb) Ha Cb Hk).
    - destruct (s_index s (tarball_key k)) as [[idx|]|] eqn:X; auto. right. right. destruct (So _ _ X) as (k2 & b2 & E2 & Ha2 & Hk2 & ->). apply key_inj in E2. subst k2.
      now rewrite (A_one k b2 bytes Ha2 Ha Hk2 Hk).
    - split; [exact Ek|]. eauto.
  Qed.
End Steps.
