(** * Which extracted files share storage with the cache, proofs *)
From Verif Require Import Base Types StdPath Fs TarModel TarStream TarProofs TarContents TarSpec.
Open Scope string_scope.
Open Scope list_scope.

(** these files are not the same inode as any content file of the cache *)
Definition sep (T : path -> Prop) (s : st) : Prop := forall q h i, T q -> s_file s q = Some i -> s_blob s h <> Some i.
Lemma vacant_sep d s : vacant d s -> sep (prefix d) s.
Proof. intros V q h i Pq F. rewrite (proj1 (V q Pq)) in F. discriminate. Qed.
Section Share.
  Variable xxh : string -> string.
  Variables linkable reflinkable : bool.
  Variable blob_mode : nat.
  Variable manifest : string -> option (bool * list string).
  Notation efc := (extract_from_cache xxh linkable reflinkable).
  (** content files from [n1] on have the mode the cache gives them *)
  Definition bmode (n1 : nat) (s : st) : Prop := forall h i, s_blob s h = Some i -> n1 <= i -> exists c, nth_error (s_inodes s) i = Some (c, blob_mode).
  Lemma share_grow T n1 s s' : dirs_grow s s' -> well_formed s -> sep T s -> (well_formed s' /\ sep T s') /\ (bmode n1 s -> bmode n1 s').
  Proof. intros [G1 G2 G3 G4 G5] [W1 W2] S. unfold well_formed, sep, bmode in *. rewrite G1, G2, G3. auto. Qed.
  Lemma share_write T n1 c s : well_formed s -> sep T s ->
    let s' := set_blob (xxh c) (Some (List.length (s_inodes s))) (set_inodes (s_inodes s ++ [(c, blob_mode)]) s) in
    (well_formed s' /\ sep T s') /\ (bmode n1 s -> bmode n1 s').
  Proof.
    intros [W1 W2] S s'. split; [split; [split|]|]; cbn.
    - intros q i H. rewrite app_length. apply W1 in H. lia.
    - intros h i. rewrite app_length. unfold supd. destruct (String.eqb h (xxh c)); [intros H; injection H as <-; cbn; lia|]. intros H. apply W2 in H. lia.
    - intros q h i Tq F. cbn in F. unfold s'. cbn. unfold supd. destruct (String.eqb h (xxh c)); [|now apply (S q)]. intros H. injection H as <-. apply W1 in F. lia.
    - intros B h i. cbn. unfold supd. destruct (String.eqb h (xxh c)); [intros H _; injection H as <-; exists c; apply nth_snoc|]. intros H Hn. destruct (B h i H Hn) as [c' E]. exists c'. now apply nth_error_app1_some.
  Qed.
  Lemma share_placed T n1 h p x mode s s' : is_copy x = true -> well_formed s -> sep T s -> (T p \/ s_file s p = None) -> placed xxh h p x mode s s' ->
    (well_formed s' /\ sep (fun q => T q \/ q = p) s') /\ (bmode n1 s -> bmode n1 s') /\ s_blob s' = s_blob s.
  Proof.
    intros Hx [W1 W2] S Hp (i & c & m0 & B & _ & [(H1 & _)|[(H1 & ->)|(j & H1 & ->)]]); [congruence| |].
    - split; [split; [split|]|split; [|reflexivity]]; cbn.
      + intros q k. rewrite app_length. unfold upd. destruct (path_eq_dec q p); [intros H; injection H as <-; cbn; lia|]. intros H. apply W1 in H. lia.
      + intros h' k H. rewrite app_length. apply W2 in H. lia.
      + intros q h' k Tq. cbn. unfold upd. destruct (path_eq_dec q p) as [->|Ne]; [intros H; injection H as <-; intros H; apply W2 in H; lia|]. destruct Tq as [Tq|]; [now apply S|contradiction].
      + intros Bm h' k H Hk. destruct (Bm h' k H Hk) as [c' E]. exists c'. cbn. now apply nth_error_app1_some.
    - assert (Tp : T p) by (destruct Hp; congruence). split; [split; [split|]|split; [|reflexivity]]; cbn.
      + intros q k. rewrite lset_length. apply W1.
      + intros h' k. rewrite lset_length. apply W2.
      + intros q h' k [Tq| ->]; cbn; [now apply S|now apply S].
      + intros Bm h' k H Hk. destruct (Bm h' k H Hk) as [c' E]. exists c'. cbn. rewrite nth_lset_neq; [exact E|]. intros ->. now apply (S p h' k Tp H1).
  Qed.
  Lemma share_placed_later (T T' : path -> Prop) h p x mode s s' : sep T s -> (forall q, T' q -> T q /\ q <> p) -> placed xxh h p x mode s s' -> sep T' s'.
  Proof.
    intros S HT (i & c & m0 & B & _ & [(H1 & H2 & ->)|[(H1 & ->)|(j & H1 & ->)]]) q h' k Tq; apply HT in Tq; destruct Tq as [Tq Nq]; cbn; rewrite ?upd_neq by exact Nq; now apply S.
  Qed.
  (** also without copying: names and content files only *)
  Lemma share_placed_wf h p x mode s s' : well_formed s -> placed xxh h p x mode s s' -> well_formed s' /\ s_blob s' = s_blob s.
  Proof.
    intros [W1 W2] (i & c & m0 & B & _ & [(H1 & H2 & ->)|[(H1 & ->)|(j & H1 & ->)]]); (split; [split|reflexivity]); cbn.
    - intros q k. destruct (Nat.eqb mode m644); rewrite ?lset_length; unfold upd; (destruct (path_eq_dec q p); [intros H; injection H as <-; apply blob_spec in B; now apply (W2 h)|apply W1]).
    - intros h' k. destruct (Nat.eqb mode m644); rewrite ?lset_length; apply W2.
    - intros q k. rewrite app_length. unfold upd. destruct (path_eq_dec q p); [intros H; injection H as <-; cbn; lia|]. intros H. apply W1 in H. lia.
    - intros h' k H. rewrite app_length. apply W2 in H. lia.
    - intros q k. rewrite lset_length. apply W1.
    - intros h' k. rewrite lset_length. apply W2.
  Qed.
  Lemma share_chmod T n1 f p : hoare (fun s => (well_formed s /\ sep T s) /\ (bmode n1 s /\ (forall i, s_file s p = Some i -> T p))) (chmod f p) (fun _ s => (well_formed s /\ sep T s) /\ bmode n1 s) (fun _ => True).
  Proof.
    intros s [[[W1 W2] S] [B Hp]]. unfold chmod. destruct (s_file s p) as [i|] eqn:F; [|destruct (s_dir s p); [repeat split; auto|exact I]].
    destruct (nth_error (s_inodes s) i) as [[c m]|] eqn:Ei; [|exact I]. split; [split; [split|]|]; cbn.
    - intros q k. rewrite lset_length. apply W1.
    - intros h k. rewrite lset_length. apply W2.
    - exact S.
    - intros h k H Hk. destruct (B h k H Hk) as [c' E]. exists c'. cbn. rewrite nth_lset_neq; [exact E|]. intros ->. now apply (S p h k (Hp _ eq_refl) F).
  Qed.
  Lemma share_chmod0 T f p : hoare (fun s => well_formed s /\ sep T s) (chmod f p) (fun _ s => well_formed s /\ sep T s) (fun _ => True).
  Proof.
    intros s [[W1 W2] S]. unfold chmod. destruct (s_file s p) as [i|] eqn:F; [|destruct (s_dir s p); [repeat split; auto|exact I]].
    destruct (nth_error (s_inodes s) i) as [[c m]|] eqn:Ei; [|exact I]. split; [split|]; cbn; [| |exact S]; intros q k; rewrite lset_length; [apply W1|apply W2].
  Qed.
  Variable d : path.
  Lemma share_recopy x : is_copy x = true -> forall todo T s, well_formed s -> sep T s ->
    match recopy xxh linkable reflinkable d todo x s with
    | (Ok _, s') => well_formed s' /\ sep (fun q => T q \/ exists f, In f todo /\ q = resolve (at_dir d (fst f))) s'
    | (Err _, _) => True
    | (Panic, _) => False
    end.
  Proof.
    intros Hx. induction todo as [|[e [h m]] t IH]; intros T s W S; cbn [recopy].
    - cbn [ret]. split; [exact W|]. intros q h i [Tq|(f & [] & _)]. now apply S.
    - unfold bind, remove_file. destruct (s_file s (resolve (at_dir d e))) as [i|] eqn:F; [|exact I]. set (p := resolve (at_dir d e)) in *.
      assert (W' : well_formed (set_file p None s)) by (destruct W as [W1 W2]; split; cbn; [|exact W2]; intros q k; unfold upd; destruct (path_eq_dec q p); [discriminate|apply W1]).
      assert (S' : sep T (set_file p None s)) by (intros q h' k Tq; cbn; unfold upd; destruct (path_eq_dec q p); [discriminate|now apply S]).
      pose proof (efc_cases xxh linkable reflinkable h p x m (set_file p None s)) as E. destruct (efc h p x m (set_file p None s)) as [[u|er|] s']; [|exact I|contradiction].
      destruct (share_placed T 0 h p x m _ s' Hx W' S') with (2 := E) as [[W2 S2] _]; [right; cbn; apply upd_eq|].
      specialize (IH _ s' W2 S2). destruct (recopy xxh linkable reflinkable d t x s') as [[u2|er|] s2]; [|exact I|contradiction]. destruct IH as [W3 S3]. split; [exact W3|].
      intros q h' k Tq. apply S3. destruct Tq as [Tq|(f & [<-|Hf] & ->)]; [auto|left; right; reflexivity|right; eauto].
  Qed.

  Variables (s1 : st) (all : list item).
  Notation n1 := (List.length (s_inodes s1)).
  Hypothesis Htame : Forall (fun it => tame (fst it)) all.
  Hypothesis Hdistinct : NoDup (map (fun it => names (fst it)) all).
  Hypothesis Hhash : forall a b, In a all -> In b all -> xxh (i_data a) = xxh (i_data b) -> i_data a = i_data b.
  (** what is there already (after a failed extraction from the cache) is not shared with the cache *)
  Hypothesis Hwf0 : forall it i, In it all -> s_file s1 (tgt d it) = Some i -> i < n1.
  Hypothesis Hshare0 : forall a b i, In a all -> In b all -> s_file s1 (tgt d a) = Some i -> s_file s1 (tgt d b) = Some i -> i_data a = i_data b.
  Hypothesis Hsep0 : sep (prefix d) s1.
  Variable x0 : xmode.
  (** the files of the package that must not be shared: all of them when copying from the start, otherwise all but package.json *)
  Definition own (done : list item) (q : path) : Prop := exists it, In it done /\ q = tgt d it /\ (is_copy x0 = true \/ fst it <> "package.json").
  (** the places the extraction has not come to *)
  Definition later (done : list item) (q : path) : Prop := prefix d q /\ ~ In q (map (tgt d) done).
  Definition safe (done : list item) (q : path) : Prop := own done q \/ later done q.
  Record SH (l : loop) (done : list item) (s : st) : Prop := mkSH {
    sh_wf : well_formed s;
    sh_sep : is_copy (l_mode l) = true -> sep (safe done) s;
    sh_later : sep (later done) s;
    sh_mode : is_copy x0 = true -> is_copy (l_mode l) = true /\ bmode n1 s;
    sh_flag : x_copy (l_index l) = true -> is_copy (l_mode l) = true }.
  Lemma sep_weaken (T T' : path -> Prop) s : (forall q, T' q -> T q) -> sep T s -> sep T' s.
  Proof. intros H S q h i Tq. apply (S q h i). auto. Qed.
  Lemma later_snoc done it q : later (done ++ [it]) q -> later done q /\ q <> tgt d it.
  Proof.
    intros [H1 H2]. rewrite map_app, in_app_iff in H2. split; [split; [exact H1|tauto]|]. intros ->. apply H2. right. now left.
  Qed.
  Lemma safe_snoc done it q : safe (done ++ [it]) q -> safe done q \/ q = tgt d it.
  Proof.
    intros [(y & Hy & -> & H)|H]; [|apply later_snoc in H; left; now right]. apply in_app_or in Hy. destruct Hy as [Hy|[<-|[]]]; [left; left; exists y; auto|now right].
  Qed.
  Lemma later_here done it : ~ In (tgt d it) (map (tgt d) done) -> later done (tgt d it).
  Proof. intros H. split; [apply prefix_app|exact H]. Qed.
  Lemma share_entry e l done rest c : e_regular e = true -> e_data e = Some c ->
    let it := (strip_one (e_path e), (c, entry_mode e)) in done ++ it :: rest = all ->
    hoare (fun s => SH l done s /\ okB xxh manifest d s1 all l done s) (extract_entry xxh linkable reflinkable blob_mode manifest d true e l) (fun l' => SH l' (done ++ [it])) (fun _ => True).
  Proof.
    intros R Ec it Eall. unfold extract_entry. rewrite R, Ec. change (strip_one (e_path e)) with (fst it). change (entry_mode e) with (i_mode it). change c with (i_data it).
    clearbody it. clear R Ec c.
    assert (Hin : In it all) by (rewrite <- Eall; apply in_or_app; right; now left).
    assert (Tm : tame (fst it)) by (rewrite Forall_forall in Htame; now apply Htame).
    assert (Td : forall y, In y done -> tame (fst y)) by (intros y Hy; rewrite Forall_forall in Htame; apply Htame; rewrite <- Eall; apply in_or_app; now left).
    pose proof (nodup_new all Hdistinct done it rest Eall) as Hn.
    assert (Hn2 : ~ In (tgt d it) (map (tgt d) done)).
    { intros H. apply in_map_iff in H. destruct H as (y & Ey & Hy). unfold tgt in Ey. apply app_inv_head in Ey. apply Hn. rewrite <- Ey. apply in_map_iff. now exists y. }
    rewrite (at_dir_plain d _ Tm), sparent_plain, resolve_plain. fold (tgt d it).
    intros s [[W S Lt M Fl] (HK & HC & HD & HX & HXb & HM & HXc & HP)].
    unfold bind at 1. change (mkdirp_op (map CNormal (removelast (tgt d it))) (l_created l) s) with (mkdirp (map CNormal (removelast (tgt d it))) (l_created l) s).
    pose proof (mkdirp_plain (removelast (tgt d it)) (l_created l) s HC) as MK. destruct (mkdirp _ (l_created l) s) as [[created|er|] s2]; [|exact I|contradiction].
    destruct MK as (G & _).
    assert (B2 : s_blob s2 = s_blob s) by apply (dg_blob _ _ G).
    assert (W2 : well_formed s2) by (apply (share_grow (fun _ => False) 0 s s2 G W); intros q h i []).
    assert (S2 : is_copy (l_mode l) = true -> sep (safe done) s2) by (intros Hc; now apply (share_grow (safe done) 0 s s2 G W (S Hc))).
    assert (L2 : sep (later done) s2) by now apply (share_grow (later done) 0 s s2 G W Lt).
    assert (M2 : is_copy x0 = true -> is_copy (l_mode l) = true /\ bmode n1 s2) by (intros Hc; destruct (M Hc) as [M1 M2]; split; [exact M1|]; now apply (share_grow (safe done) n1 s s2 G W (S M1))).
    clear W S Lt M HK HC HD G B2 s.
    unfold bind at 1. unfold write_blob. cbn [new_inode].
    set (s3 := set_blob (xxh (i_data it)) (Some (List.length (s_inodes s2))) (set_inodes (s_inodes s2 ++ [(i_data it, blob_mode)]) s2)) in *.
    assert (W3 : well_formed s3) by (apply (share_write (fun _ => False) 0 (i_data it) s2 W2); intros q h i []).
    assert (S3 : is_copy (l_mode l) = true -> sep (safe done) s3) by (intros Hc; now apply (share_write (safe done) 0 (i_data it) s2 W2 (S2 Hc))).
    assert (L3 : sep (later done) s3) by now apply (share_write (later done) 0 (i_data it) s2 W2 L2).
    assert (M3 : is_copy x0 = true -> is_copy (l_mode l) = true /\ bmode n1 s3) by (intros Hc; destruct (M2 Hc) as [M1 M2']; split; [exact M1|]; now apply (share_write (safe done) n1 (i_data it) s2 W2 (S2 M1))).
    clearbody s3. clear W2 S2 L2 M2 s2. assert (Tp : safe done (tgt d it)) by (right; now apply later_here).
    unfold bind at 1. pose proof (efc_cases xxh linkable reflinkable (xxh (i_data it)) (tgt d it) (l_mode l) (i_mode it) s3) as E.
    destruct (efc (xxh (i_data it)) (tgt d it) (l_mode l) (i_mode it) s3) as [[u|er|] s4]; [|exact I|contradiction].
    assert (W4 : well_formed s4) by now apply (share_placed_wf _ _ _ _ s3 s4 W3 E).
    assert (S4 : is_copy (l_mode l) = true -> sep (safe (done ++ [it])) s4).
    { intros Hc. destruct (share_placed (safe done) 0 _ _ _ _ s3 s4 Hc W3 (S3 Hc) (or_introl Tp) E) as [[_ S] _]. apply (sep_weaken (fun q => safe done q \/ q = tgt d it)); [apply safe_snoc|exact S]. }
    assert (L4 : sep (later (done ++ [it])) s4) by exact (share_placed_later (later done) _ _ _ _ _ s3 s4 L3 (later_snoc done it) E).
    assert (M4 : is_copy x0 = true -> is_copy (l_mode l) = true /\ bmode n1 s4).
    { intros Hc. destruct (M3 Hc) as [M1 M2]. split; [exact M1|]. now apply (share_placed (safe done) n1 _ _ _ _ s3 s4 M1 W3 (S3 M1) (or_introl Tp) E). }
    clear W3 S3 L3 M3 Tp E s3.
    destruct (String.eqb_spec (fst it) "package.json") as [Ep|Ep]; [|cbn [ret]; now constructor].
    unfold bind at 1. unfold read_file. destruct (s_file s4 (tgt d it)) as [i|]; [|exact I]. destruct (nth_error (s_inodes s4) i) as [[ct cm]|]; [|exact I].
    destruct (manifest ct) as [[sc bins]|]; [|exact I]. destruct sc; [|cbn [ret]; now constructor].
    destruct (is_copy (l_mode l)) eqn:Hc; [cbn [ret]; constructor; cbn [l_mode l_index x_copy]; [exact W4|auto|exact L4|intros H0; destruct (M4 H0); auto|auto]|].
    unfold bind. cbn [x_files]. rewrite HX.
    pose proof (share_recopy Auto eq_refl (map (idx_of xxh) done) (later (done ++ [it])) s4 W4 L4) as RC.
    destruct (recopy xxh linkable reflinkable d (map (idx_of xxh) done) Auto s4) as [[u2|er|] s5]; [|exact I|contradiction]. destruct RC as [W5 S5].
    cbn [ret]. constructor; cbn; auto.
    - intros _. apply (sep_weaken _ (safe (done ++ [it]))) with (2 := S5). intros q [(y & Hy & -> & Hy2)|Hq]; [right|now left]. apply in_app_or in Hy. destruct Hy as [Hy|[<-|[]]].
      + exists (idx_of xxh y). split; [now apply in_map|]. cbn [idx_of fst]. now rewrite (at_dir_plain d _ (Td y Hy)), resolve_plain.
      + exfalso. destruct Hy2 as [Hy2|Hy2]; [|contradiction]. apply M4 in Hy2. destruct Hy2 as [Hy2 _]. discriminate.
    - apply (sep_weaken _ (later (done ++ [it]))) with (2 := S5). intros q Hq. now left.
    - intros H0. apply M4 in H0. destruct H0 as [H0 _]. discriminate.
  Qed.
  Lemma share_entries : forall es l done, done ++ items es = all ->
    hoare (fun s => SH l done s /\ okB xxh manifest d s1 all l done s) (extract_entries xxh linkable reflinkable blob_mode manifest d true es l) (fun l' => SH l' all) (fun _ => True).
  Proof.
    induction es as [|e es IH]; intros l done E; cbn [extract_entries].
    - cbn in E. rewrite app_nil_r in E. subst. apply hoare_ret. intros s H. apply H.
    - cbn [items flat_map] in E. destruct (e_regular e) eqn:R.
      + destruct (e_data e) as [c|] eqn:D.
        * apply hoare_bind with (Q := fun l' s => SH l' (done ++ [(strip_one (e_path e), (c, entry_mode e))]) s /\ okB xxh manifest d s1 all l' (done ++ [(strip_one (e_path e), (c, entry_mode e))]) s).
          -- intros s [A B]. pose proof (share_entry e l done (items es) c R D E s (conj A B)) as H1.
             pose proof (hoare_entry_B xxh linkable reflinkable blob_mode manifest d s1 all Htame Hdistinct Hhash Hwf0 Hshare0 e l done (items es) R c D E s B) as H2.
             destruct (extract_entry _ _ _ _ _ d true e l s) as [[l'|er|] s']; auto.
          -- intros l'. apply IH. rewrite <- app_assoc. exact E.
        * intros s Hs. unfold bind, extract_entry. rewrite R, D. unfold bind. change (mkdirp_op ?a ?b s) with (mkdirp a b s).
          destruct (mkdirp _ (l_created l) s) as [[cr|er|] s2] eqn:MK; [exact I|exact I|]. now apply mkdirp_no_panic in MK.
      + intros s Hs. unfold bind, extract_entry. rewrite R. destruct (e_data e) as [c|] eqn:D; [|exact I]. cbn [ret]. apply (IH l done E). exact Hs.
  Qed.
  Lemma share_bins T : forall bins, hoare (fun s => well_formed s /\ sep T s) (mark_bins d bins) (fun _ s => well_formed s /\ sep T s) (fun _ => True).
  Proof. induction bins as [|b t IH]; cbn [mark_bins]; [now apply hoare_ret|]. apply hoare_bind with (Q := fun _ s => well_formed s /\ sep T s); [apply share_chmod0|]. intros _. exact IH. Qed.
  Lemma chmod_names f p s : s_file (snd (chmod f p s)) = s_file s.
  Proof. unfold chmod. destruct (s_file s p) as [i|]; [|now destruct (s_dir s p)]. now destruct (nth_error (s_inodes s) i) as [[c m]|]. Qed.
  Lemma safe_all : is_copy x0 = true -> forall b, safe all (d ++ names b).
  Proof.
    intros Hx b. destruct (in_dec path_eq_dec (d ++ names b) (map (tgt d) all)) as [Hi|Hi]; [|right; split; [apply prefix_app|exact Hi]].
    apply in_map_iff in Hi. destruct Hi as (y & Ey & Hy). left. exists y. rewrite Ey. auto.
  Qed.
  Lemma mode_bins : is_copy x0 = true -> forall bins, Forall tame bins ->
    hoare (fun s => (well_formed s /\ sep (safe all) s) /\ bmode n1 s) (mark_bins d bins) (fun _ s => bmode n1 s) (fun _ => True).
  Proof.
    intros Hx. induction bins as [|b t IH]; intros F; cbn [mark_bins]; [apply hoare_ret; tauto|].
    apply hoare_bind with (Q := fun _ s => (well_formed s /\ sep (safe all) s) /\ bmode n1 s); [|intros _; apply IH, (Forall_inv_tail F)].
    intros s (A & B). rewrite (at_dir_plain d b (Forall_inv F)), resolve_plain.
    pose proof (share_chmod (safe all) n1 (fun m => Nat.lor m m111) (d ++ names b) s) as H.
    destruct (chmod _ _ s) as [[u|er|] s']; [exact (H (conj A (conj B (fun i _ => safe_all Hx b))))|exact I|].
    exact (H (conj A (conj B (fun i _ => safe_all Hx b)))).
  Qed.
  Theorem share_result untar sri bytes : items (fst (untar bytes)) = all -> well_formed s1 ->
    match extract_tarball xxh linkable reflinkable blob_mode untar manifest d sri true x0 bytes s1 with
    | (Ok k, s') => well_formed s' /\
        ((is_copy x0 = true \/ exists b, mani_of manifest all = Some (true, b)) -> sep (own all) s') /\
        (is_copy x0 = true -> Forall tame (match mani_of manifest all with Some (_, b) => b | None => [] end) -> bmode n1 s')
    | (Err _, _) => True
    | (Panic, _) => False
    end.
  Proof.
    intros Eall W. unfold extract_tarball. destruct (untar bytes) as [es clean]. cbn [fst snd] in *.
    unfold bind at 1. change (mkdirp_op (map CNormal d) [] s1) with (mkdirp (map CNormal d) [] s1).
    pose proof (mkdirp_plain d [] s1 ltac:(intros k q [])) as MK. destruct (mkdirp (map CNormal d) [] s1) as [[created|er|] s2]; [|exact I|contradiction].
    destruct MK as (G & C1 & C2 & C3 & C4).
    assert (S2 : okB xxh manifest d s1 all (mkLoop created x0 (mkIdx false [] []) None) [] s2).
    { split; [exact (K_grow xxh d s1 all [] None s1 s2 (K_start xxh d s1 all) G)|]. split; [exact C1|]. split.
      - intros q. cbn in C4. rewrite C4. split; [intros [H|[H1 H2]]; auto|]. intros [H|[H1 [H2|(it & [] & _)]]]; auto.
      - cbn. repeat split; auto; try contradiction. }
    assert (H2 : SH (mkLoop created x0 (mkIdx false [] []) None) [] s2).
    { assert (E0 : sep (safe []) s1) by (intros q h i [(it & [] & _)|[Hq _]]; now apply Hsep0).
      destruct (share_grow (safe []) n1 s1 s2 G W E0) as [[W2 Sp] B2]. constructor; cbn; [exact W2|auto|apply (sep_weaken (safe [])); [intros q Hq; now right|exact Sp]| |discriminate]. intros Hc. split; [exact Hc|]. apply B2. intros h i H Hn. apply W in H. lia. }
    unfold bind at 1. pose proof (share_entries es _ [] Eall s2 (conj H2 S2)) as E.
    pose proof (hoare_entries_B xxh linkable reflinkable blob_mode manifest d s1 all Htame Hdistinct Hhash Hwf0 Hshare0 es _ [] Eall s2 S2) as EB.
    destruct (extract_entries _ _ _ _ _ d true es _ s2) as [[l|er|] s3]; [|exact I|contradiction].
    destruct EB as [(HK & HC & HD & HX & HXb & HM & HXc & HP) HF]. destruct clean; cbn [negb]; [|exact I]. cbv zeta. rewrite HM.
    set (bins := match mani_of manifest all with Some (_, b) => b | None => [] end) in *.
    destruct E as [E1 E2 E2' E3 E4].
    assert (S0 : sep (fun q => is_copy (l_mode l) = true /\ own all q) s3) by (intros q h i [Hc Hq]; apply (E2 Hc); now left).
    unfold bind. pose proof (share_bins _ bins s3 (conj E1 S0)) as SB.
    pose proof (fun Hx Ht => mode_bins Hx bins Ht s3) as MB.
    destruct (mark_bins d bins s3) as [[u|er|] s4]; [|exact I|exact SB].
    destruct SB as [W4 S4].
    assert (Ix : forall T k o s, sep T s -> sep T (set_index k o s)) by (intros T k o s H; exact H).
    split; [exact W4|]. split.
    - intros Hc. apply Ix. assert (Hl : is_copy (l_mode l) = true) by (destruct Hc as [Hc|[b Hb]]; [now apply E3|]; apply E4; now rewrite HXc, Hb).
      intros q h i Hq. apply (S4 q h i). auto.
    - intros Hx Ht. specialize (MB Hx Ht). destruct (E3 Hx) as [Hl B3]. exact (MB (conj (conj E1 (E2 Hl)) B3)).
  Qed.
End Share.
