(** * Extracting again from the cache, proofs *)
From Verif Require Import Base Types StdPath Fs TarModel TarStream TarProofs TarContents TarWarm TarWarmTotal TarTotal TarSpec TarThms TarCache TarShare.
From Coq Require Import Permutation.
Open Scope string_scope.
Open Scope list_scope.

Lemma same_mode n a : (if Nat.eqb a n then n else a) = a.
Proof. destruct (Nat.eqb_spec a n); auto. Qed.
Section Replay.
  Variable check : string -> string -> bool.
  Variable limit : nat.
  Variable xxh : string -> string.
  Variables linkable reflinkable : bool.
  Variable blob_mode : nat.
  Variable untar : string -> list entry * bool.
  Variable manifest : string -> option (bool * list string).
  Notation tarball := (extract_tarball xxh linkable reflinkable blob_mode untar manifest).
  Notation whole := (extract_to_dir check limit xxh linkable reflinkable blob_mode untar manifest).
  Notation entries := (entries untar).
  Notation index_of := (index_of xxh manifest).
  Variables (d1 d2 : path) (sri : option string) (x1 x2 : xmode) (bytes : string) (s s1 s2 : st) (k : string).
  Variable order : tindex -> list (string * (string * nat)).
  Notation es := (entries bytes).
  Hypothesis P : proper es.
  Hypothesis N : no_collision xxh (contents_of es).
  Hypothesis V1 : vacant d1 s.
  Hypothesis W : well_formed s.
  Hypothesis Cold : tarball d1 sri true x1 bytes s = (Ok k, s1).
  Hypothesis Co : coherent es.
  Hypothesis W2 : well_formed s2.
  Hypothesis F2 : free_place d2 s2.
  Hypothesis Kept : cache_kept xxh k es s1 s2.
  Hypothesis Ho : forall idx, Permutation (x_files idx) (order idx).
  Let T := proj1 (proper_items _ P).
  Let D := proj2 (proper_items _ P).
  Let Hh := hash_items xxh _ (proj1 P) N.
  Let H1 : forall it i, In it (items es) -> s_file s (tgt d1 it) = Some i -> i < List.length (s_inodes s) := fun it i H1 H2 => match vacant_tgt d1 s _ V1 it i H1 H2 with end.
  Let H2 : forall a b i, In a (items es) -> In b (items es) -> s_file s (tgt d1 a) = Some i -> s_file s (tgt d1 b) = Some i -> i_data a = i_data b := fun a b i H1 H2 H3 H4 => match vacant_tgt d1 s _ V1 a i H1 H3 with end.
  Lemma cold_index : s_index s1 (tarball_key k) = Some (Some (index_of es)).
  Proof. exact (proj1 (proj2 (proj2 (cold_contents xxh linkable reflinkable blob_mode untar manifest d1 sri x1 bytes s k s1 P N V1 Cold)))). Qed.
  (** after the first extraction the cache has every file of the package *)
  Lemma cold_cached it : In it (items es) -> exists m, cached_at s1 (xxh (i_data it)) = Some (i_data it, m) /\
    (is_copy x1 = true -> Forall tame (bins_of manifest es) -> m = blob_mode).
  Proof.
    intros Hi. pose proof (cold_result xxh linkable reflinkable blob_mode manifest d1 s (items es) T D Hh H1 H2 untar sri x1 bytes eq_refl) as R. rewrite Cold in R.
    destruct R as (_ & _ & _ & _ & sk & HK & _ & E). destruct (k_blob _ _ _ _ _ _ _ HK it Hi ltac:(discriminate)) as (i & a & m & B1 & B2 & B3 & B4 & B5).
    exists m. split; [rewrite E; unfold cached_at; cbn; rewrite B1, B3; do 2 f_equal; now apply Hh|].
    intros Hx Hb. pose proof (share_result xxh linkable reflinkable blob_mode manifest d1 s (items es) T D Hh H1 H2 (vacant_sep _ _ V1) x1 untar sri bytes eq_refl W) as R. rewrite Cold in R.
    destruct R as (_ & _ & Bm). rewrite <- (mani_manifest manifest es P) in Hb || idtac. unfold bins_of in Hb. rewrite <- (mani_manifest manifest es P) in Hb. specialize (Bm Hx Hb).
    destruct (Bm (xxh (i_data it)) i) as [c Ec]; [rewrite E; exact B1|exact B2|]. rewrite E in Ec. cbn in Ec. congruence.
  Qed.
  Let l := order (index_of es).
  Lemma replay_files : Forall (fun it : item => tame (fst it)) l /\ NoDup (map (fun it : item => names (fst it)) l) /\ forall f, In f l <-> exists it, In it (items es) /\ f = idx_of xxh it.
  Proof. exact (perm_files xxh manifest es l (Ho _) P). Qed.
  Lemma replay_blob it : In it (items es) -> exists i m, blob xxh (xxh (i_data it)) s2 = Some (i, i_data it, m) /\ (is_copy x1 = true -> Forall tame (bins_of manifest es) -> m = blob_mode).
  Proof.
    intros Hi. destruct (cold_cached it Hi) as (m & E & Hm). rewrite <- (proj2 Kept) in E by (apply item_content; [apply P|exact Hi]).
    unfold cached_at in E. destruct (s_blob s2 (xxh (i_data it))) as [i|] eqn:B; [|discriminate]. exists i, m. split; [|exact Hm]. apply blob_spec. auto.
  Qed.
  Theorem replay fetch : exists s3, whole fetch order d2 (Some k) true x2 s2 = (Ok k, s3) /\ holds_package d2 es s3 /\ holds_dirs d2 es s3 /\
    KW xxh d2 s2 (x_bins (index_of es)) (warm_mode (index_of es) x2) l s3.
  Proof.
    destruct replay_files as (Tl & Dl & Ll). destruct F2 as (Nd & V2 & Nf).
    assert (In1 : forall it, In it l -> exists y, In y (items es) /\ it = idx_of xxh y) by (intros it; apply Ll).
    destruct (warm_total xxh linkable reflinkable d2 s2 (index_of es) l x2 Nd Tl Dl V2 Nf (proj2 W2)) as [s3 E].
    - intros it Hi. destruct (In1 it Hi) as (y & Hy & ->). apply (proj1 Co (names (fst y), snd y)). apply in_files; [apply P|eauto].
    - intros a b Ha Hb Pr. destruct (In1 a Ha) as (ya & Hya & ->). destruct (In1 b Hb) as (yb & Hyb & ->). f_equal. apply (tgt_inj d1 (items es) D ya yb Hya Hyb). unfold tgt. f_equal.
      apply (proj2 Co (names (fst ya), snd ya) (names (fst yb), snd yb)); [apply in_files; [apply P|eauto]|apply in_files; [apply P|eauto]|exact Pr].
    - intros it Hi. destruct (In1 it Hi) as (y & Hy & ->). destruct (replay_blob y Hy) as (i & m & B & _). eauto.
    - exists s3. split; [unfold extract_to_dir; rewrite (proj1 Kept), cold_index; fold l; now rewrite E|].
      pose proof (warm_result xxh linkable reflinkable d2 s2 (index_of es) l x2 Tl Dl ltac:(intros it _; apply (V2 _ (prefix_app _ _))) (proj2 W2)) as R. rewrite E in R. destruct R as [HK HD].
      split; [|split; [|exact HK]].
      + apply (exact_contents d2 es s2); [exact P|exact V2| |].
        * intros q Hq. apply (w_file _ _ _ _ _ _ _ HK). intros H. apply Hq. apply in_map_iff in H. destruct H as (f & <- & Hf). apply Ll in Hf. destruct Hf as (it & Hi & ->). apply in_map_iff. exists it. split; [reflexivity|exact Hi].
        * intros it Hi. destruct (w_done _ _ _ _ _ _ _ HK (idx_of xxh it)) as (i & c & m & i0 & m0 & C1 & C2 & C3 & _); [apply Ll; eauto|]. exists i, m. split; [exact C1|]. rewrite C2. do 2 f_equal.
          destruct (replay_blob it Hi) as (i' & m' & B & _). change (i_data (idx_of xxh it)) with (xxh (i_data it)) in C3. congruence.
      + apply (dirs_exact d2 es s2); [exact P|exact V2|apply named_items; [exact P|exact (proj1 Co)]|]. intros q Nq Pq. rewrite (HD q). split.
        * intros [H|(_ & f & Hf & H)]; [auto|]. right. apply Ll in Hf. destruct Hf as (it & Hi & ->). exists it. auto.
        * intros [H|(it & Hi & H)]; [auto|]. right. split; [intros ->; apply prefix_nil in Pq; congruence|]. exists (idx_of xxh it). split; [apply Ll; eauto|exact H].
  Qed.
  (** when both copy, modes agree as well *)
  Theorem replay_modes fetch : is_copy x1 = true -> is_copy x2 = true \/ scripts_of manifest es = true -> blob_mode = 420 ->
    Forall tame (bins_of manifest es) -> (forall b e, In b (bins_of manifest es) -> In e es -> e_regular e = true -> names b = inner_path (e_path e) -> b = strip_one (e_path e)) ->
    exists s3, whole fetch order d2 (Some k) true x2 s2 = (Ok k, s3) /\ forall q, file_at s3 (d2 ++ q) = file_at s1 (d1 ++ q).
  Proof.
    intros X1 X2 Bm Tb Cb. destruct (replay fetch) as (s3 & E & Hc & _ & HK). exists s3. split; [exact E|]. intros q. unfold file_at.
    destruct (index_bins xxh manifest es P) as [Eb Ec].
    assert (Tb' : Forall tame (match mani_of manifest (items es) with Some (_, b) => b | None => [] end)) by (rewrite (mani_manifest manifest es P); exact Tb).
    pose proof (cold_modes xxh linkable reflinkable blob_mode manifest d1 s (items es) T D Hh H1 H2 (fun it _ => proj1 (V1 (tgt d1 it) (prefix_app _ _))) (fun q Pq => proj1 (V1 q Pq)) untar sri x1 bytes eq_refl (or_introl X1) Tb') as M. rewrite Cold in M.
    rewrite (mani_manifest manifest es P) in M. fold (bins_of manifest es) in M.
    destruct replay_files as (Tl & Dl & Ll).
    destruct (item_dec es q) as [(it & Hi & Eq)|Hn].
    - destruct (mm_done _ _ _ _ _ M it Hi) as (i & M1 & M2). unfold tgt in M1. rewrite Eq in M1. rewrite M1, M2.
      destruct (w_done _ _ _ _ _ _ _ HK (idx_of xxh it)) as (i' & c & m & i0 & m0 & C1 & C2 & C3 & C4); [apply Ll; eauto|]. change (tgt d2 (idx_of xxh it)) with (d2 ++ names (fst it)) in C1. rewrite Eq in C1. rewrite C1, C2.
      destruct C4 as [_ C4]; [unfold warm_mode; rewrite Ec; destruct (is_copy x2) eqn:X; [destruct (scripts_of manifest es); exact X|]; destruct X2 as [X2|X2]; [discriminate|]; rewrite X2; reflexivity|].
      destruct (replay_blob it Hi) as (i2 & m2 & B & Bm2). change (i_data (idx_of xxh it)) with (xxh (i_data it)) in C3. rewrite B in C3. injection C3 as _ <- <-. f_equal. f_equal. rewrite C4, (Bm2 X1 Tb), Bm.
      unfold wmode, emode. change (i_mode (idx_of xxh it)) with (i_mode it). change (fst (idx_of xxh it)) with (fst it). rewrite Eb.
      assert (Em : existsb (String.eqb (fst it)) (bins_of manifest es) = marked (bins_of manifest es) it).
      { unfold items in Hi. apply in_flat_map in Hi. destruct Hi as (e & He & Hi). destruct (e_regular e) eqn:R; [|contradiction]. destruct (e_data e) as [ct|]; [|contradiction]. destruct Hi as [<-|[]].
        assert (Hins : inside (e_path e)) by (pose proof (proj1 P) as P1; rewrite Forall_forall in P1; now apply P1).
        revert Cb. generalize (bins_of manifest es). intros bs Cb. unfold marked, named. cbn [fst]. induction bs as [|b bs IH]; [reflexivity|]. cbn [existsb]. rewrite IH by (intros b' e' Hb; apply Cb; now right). f_equal.
        rewrite String.eqb_sym. destruct (path_eq_dec (names b) (names (strip_one (e_path e)))) as [En|En].
        - rewrite names_strip in En by exact Hins. rewrite (Cb b e (or_introl eq_refl) He R En). apply String.eqb_refl.
        - apply String.eqb_neq. intros ->. contradiction. }
      rewrite Em. change 420 with m644. unfold mode_of. rewrite !same_mode. reflexivity.
    - rewrite (mm_file _ _ _ _ _ M), (w_file _ _ _ _ _ _ _ HK).
      + rewrite (proj1 (V1 (d1 ++ q) (prefix_app _ _))). destruct F2 as (_ & V2 & _). now rewrite (proj1 (V2 (d2 ++ q) (prefix_app _ _))).
      + intros H. apply in_map_iff in H. destruct H as (f & Ef & Hf). apply Ll in Hf. destruct Hf as (it & Hi & ->). apply app_inv_head in Ef. now apply (Hn it).
      + intros H. apply in_map_iff in H. destruct H as (f & Ef & Hf). apply app_inv_head in Ef. now apply (Hn f).
  Qed.
End Replay.
