(** * Extraction never leaves the destination directory, proofs *)
From Verif Require Import Base Types StdPath Fs TarModel TarStream TarProofs.
Open Scope string_scope.
Open Scope list_scope.

Section Confine.
  Variable check : string -> string -> bool.
  Variable limit : nat.
  Variable xxh : string -> string.
  Variables linkable reflinkable : bool.
  Variable blob_mode : nat.
  Variable untar : string -> list entry * bool.
  Variable manifest : string -> option (bool * list string).
  Notation efc := (extract_from_cache xxh linkable reflinkable).
  (** the destination and the state before *)
  Variables (d : path) (s0 : st).
  Notation n0 := (List.length (s_inodes s0)).
  (** everything that was there before is as it was, and files below the destination are new *)
  Record J (s : st) : Prop := mkJ {
    j_len : n0 <= List.length (s_inodes s);
    j_old : forall j, j < n0 -> nth_error (s_inodes s) j = nth_error (s_inodes s0) j;
    j_out : forall q, ~ prefix d q -> s_file s q = s_file s0 q;
    j_in : forall q i, prefix d q -> s_file s q = Some i -> n0 <= i;
    j_dirs : forall q, s_dir s q = true -> s_dir s0 q = true \/ prefix q d \/ prefix d q;
    j_mono : forall q, s_dir s0 q = true -> s_dir s q = true }.
  Definition newblob (s : st) (h : string) : Prop := forall i, s_blob s h = Some i -> n0 <= i.
  Definition okfile (s : st) (f : string * (string * nat)) : Prop := tame (fst f) /\ newblob s (fst (snd f)).
  Definition JL (created : list spath) (files : list (string * (string * nat))) (s : st) : Prop :=
    J s /\ created_ok created s /\ Forall (okfile s) files.

  Lemma nth_lset_old (l : list (string * nat)) j x k : n0 <= j -> k < n0 -> nth_error (lset l j x) k = nth_error l k.
  Proof. intros H1 H2. apply nth_lset_neq. lia. Qed.
  Lemma J_inodes s l : J s -> n0 <= List.length l -> (forall j, j < n0 -> nth_error l j = nth_error (s_inodes s) j) -> J (set_inodes l s).
  Proof. intros [A B C D E F] H1 H2. constructor; cbn; auto. intros j Hj. rewrite H2 by exact Hj. now apply B. Qed.
  Lemma J_file s p o : J s -> prefix d p -> (forall i, o = Some i -> n0 <= i) -> J (set_file p o s).
  Proof.
    intros [A B C D E F] H1 H2. constructor; cbn; auto.
    - intros q Hq. unfold upd. destruct (path_eq_dec q p); [subst; contradiction|now apply C].
    - intros q i Hq. unfold upd. destruct (path_eq_dec q p); [apply H2|now apply D].
  Qed.
  Lemma J_placed h p x mode s s' : J s -> is_copy x = true \/ newblob s h -> prefix d p -> placed xxh h p x mode s s' -> J s' /\ s_blob s' = s_blob s /\ s_dir s' = s_dir s.
  Proof.
    intros HJ HB Hp (i & c & m0 & B & _ & H). apply blob_spec in B. destruct B as (B1 & B2 & B3).
    destruct H as [(H1 & H2 & ->)|[(H1 & ->)|(j & H1 & ->)]].
    - assert (Hi : n0 <= i) by (destruct HB as [HB|HB]; [congruence|now apply HB]). split; [|auto]. assert (HJ' : J (set_file p (Some i) s)) by (apply J_file; [exact HJ|exact Hp|intros i' E; now injection E as <-]).
      destruct (Nat.eqb mode m644); [apply J_inodes; [exact HJ'|apply HJ|reflexivity]|]. apply J_inodes; [exact HJ'|rewrite lset_length; apply HJ|]. intros k Hk. cbn. now apply nth_lset_old.
    - split; [|auto]. apply J_file; [|exact Hp|intros i' E; injection E as <-; apply HJ]. apply J_inodes; [exact HJ|rewrite app_length; pose proof (j_len _ HJ); lia|].
      intros k Hk. apply nth_error_app1. pose proof (j_len _ HJ). lia.
    - split; [|auto]. assert (Hj : n0 <= j) by now apply (j_in _ HJ p j). apply J_inodes; [exact HJ|rewrite lset_length; apply HJ|]. intros k Hk. now apply nth_lset_old.
  Qed.
  Lemma okfile_same s s' f : s_blob s' = s_blob s -> okfile s f -> okfile s' f.
  Proof. intros E [H1 H2]. split; [exact H1|]. unfold newblob. now rewrite E. Qed.
  Lemma JL_same created files s s' : JL created files s -> J s' -> s_blob s' = s_blob s -> s_dir s' = s_dir s -> JL created files s'.
  Proof.
    intros (H1 & H2 & H3) HJ E1 E2. split; [exact HJ|]. split; [unfold created_ok; now rewrite E2|]. eapply Forall_impl; [|exact H3]. intros f. now apply okfile_same.
  Qed.
  Lemma hoare_efc created files h p x mode : prefix d p -> hoare (fun s => JL created files s /\ (is_copy x = true \/ newblob s h)) (efc h p x mode) (fun _ => JL created files) J.
  Proof.
    intros Hp s [H1 H2]. pose proof (efc_cases xxh linkable reflinkable h p x mode s) as E. destruct (efc h p x mode s) as [[a|e|] s']; [|subst; apply H1|contradiction].
    destruct (J_placed h p x mode s s' (proj1 H1) H2 Hp E) as (J1 & E1 & E2). now apply (JL_same created files s s').
  Qed.
  Lemma prefix_either q p : prefix d p -> prefix q p -> prefix q d \/ prefix d q.
  Proof. intros H1 H2. now apply (prefix_linear q d p). Qed.
  Lemma J_grow s s' l : J s -> dirs_grow s s' -> (forall q, s_dir s' q = true -> s_dir s q = true \/ (q <> [] /\ prefix q l)) -> (exists p, prefix d p /\ prefix l p) -> J s'.
  Proof.
    intros [A B C D E F] [G1 G2 G3 G4 G5] H (p & P1 & P2). constructor; rewrite ?G1, ?G2; auto.
    intros q Hq. destruct (H q Hq) as [K|[_ K]]; [now apply E|]. right. apply (prefix_either q p P1). now apply prefix_trans with l.
  Qed.
  Lemma hoare_mkdirp l created files : (exists p, prefix d p /\ prefix l p) -> hoare (JL created files) (mkdirp (map CNormal l) created) (fun created' => JL created' files) J.
  Proof.
    intros Hp s (H1 & H2 & H3). pose proof (mkdirp_plain l created s H2) as M. destruct (mkdirp (map CNormal l) created s) as [[c'|e|] s']; [| |contradiction].
    - destruct M as (G & M1 & M2 & M3 & M4). split; [|split; [exact M1|]].
      + apply (J_grow s s' l H1 G); [|exact Hp]. intros q. now rewrite M4.
      + eapply Forall_impl; [|exact H3]. intros f. apply okfile_same. apply (dg_blob _ _ G).
    - destruct M as (G & M). now apply (J_grow s s' l).
  Qed.
  Lemma hoare_write created files c : hoare (JL created files) (write_blob xxh blob_mode c) (fun h s => JL created files s /\ newblob s h) J.
  Proof.
    intros s (H1 & H2 & H3). unfold write_blob. cbn [new_inode].
    set (s1 := set_blob (xxh c) (Some (List.length (s_inodes s))) (set_inodes (s_inodes s ++ [(c, blob_mode)]) s)).
    assert (HJ : J s1).
    { destruct H1 as [A B C D E F]. constructor; cbn; auto; [rewrite app_length; lia|]. intros j Hj. rewrite nth_error_app1 by lia. now apply B. }
    assert (NB : forall h, newblob s h -> newblob s1 h).
    { intros h Hh i. cbn. unfold supd. destruct (String.eqb h (xxh c)); [intros Ei; injection Ei as <-; apply H1|apply Hh]. }
    split.
    - split; [exact HJ|]. split; [exact H2|]. eapply Forall_impl; [|exact H3]. intros f [F1 F2]. split; auto.
    - intros i. cbn. unfold supd. rewrite String.eqb_refl. intros Ei; injection Ei as <-; apply H1.
  Qed.
  Lemma hoare_remove created files p : prefix d p -> hoare (JL created files) (remove_file p) (fun _ => JL created files) J.
  Proof.
    intros Hp s H. unfold remove_file. destruct (s_file s p); [|apply H]. apply (JL_same created files s); [exact H|apply J_file; [apply H|exact Hp|discriminate]|reflexivity|reflexivity].
  Qed.
  Lemma hoare_read created files p : hoare (JL created files) (read_file p) (fun _ => JL created files) J.
  Proof. intros s H. unfold read_file. destruct (s_file s p) as [i|]; [|apply H]. destruct (nth_error (s_inodes s) i) as [[c m]|]; [exact H|apply H]. Qed.
  Lemma hoare_chmod f p created files : prefix d p -> hoare (JL created files) (chmod f p) (fun _ => JL created files) J.
  Proof.
    intros Hp s H. unfold chmod. destruct (s_file s p) as [i|] eqn:F; [|destruct (s_dir s p); [exact H|apply H]]. destruct (nth_error (s_inodes s) i) as [[c m]|]; [|apply H].
    apply (JL_same created files s); [exact H| |reflexivity|reflexivity]. destruct H as [H _]. apply J_inodes; [exact H|rewrite lset_length; apply H|]. intros k Hk. apply nth_lset_old; [|exact Hk]. now apply (j_in _ H p i).
  Qed.
  Lemma hoare_recopy created files x : forall todo, incl todo files -> hoare (JL created files) (recopy xxh linkable reflinkable d todo x) (fun _ => JL created files) J.
  Proof.
    induction todo as [|[e [h m]] t IH]; intros Hi; cbn [recopy]; [now apply hoare_ret|].
    intros s Hs. pose proof Hs as (HJ & HC & HF). rewrite Forall_forall in HF. destruct (HF _ (Hi _ (or_introl eq_refl))) as [Ht Hb]. cbn in Ht, Hb.
    rewrite (at_dir_plain d e Ht), resolve_plain.
    refine (hoare_bind _ _ (fun s => JL created files s /\ newblob s h) (fun _ s => JL created files s /\ newblob s h) _ J _ _ _ _ s (conj Hs Hb)).
    - intros s1 [A B]. pose proof (hoare_remove created files (d ++ names e) (prefix_app _ _) s1 A) as R. unfold remove_file in *. destruct (s_file s1 _); [split; [exact R|exact B]|exact R].
    - intros _. apply hoare_bind with (Q := fun _ => JL created files); [intros s1 [A B]; apply (hoare_efc created files h _ x m (prefix_app _ _) s1); auto|]. intros _. apply IH. intros y Hy. apply Hi. now right.
  Qed.
  Lemma Forall_sput (P : string * (string * nat) -> Prop) k v l : P (k, v) -> Forall P l -> Forall P (sput k v l).
  Proof.
    intros H. induction 1 as [|[k' v'] l H1 H2 IH]; cbn; [auto|]. destruct (String.eqb_spec k k') as [->|_]; auto.
  Qed.
  (** the archives and manifests considered: no ".." in the paths used *)
  Definition tame_entry (e : entry) : Prop := e_regular e = true -> tame (strip_one (e_path e)).
  Hypothesis Hbins : forall text b bins, manifest text = Some (b, bins) -> Forall tame bins.
  Definition okloop (l : loop) (s : st) : Prop := JL (l_created l) (x_files (l_index l)) s /\ forall b bins, l_mani l = Some (b, bins) -> Forall tame bins.
  Lemma hoare_entry cached e l : tame_entry e ->
    hoare (okloop l) (extract_entry xxh linkable reflinkable blob_mode manifest d cached e l) okloop J.
  Proof.
    intros He. unfold extract_entry. destruct (e_regular e) eqn:R.
    2: { destruct (e_data e); [now apply hoare_ret|]. apply hoare_fail. intros s [H _]. apply H. }
    specialize (He R). intros s [Hs Hm]. rewrite (at_dir_plain d _ He), sparent_plain, resolve_plain.
    set (p := d ++ names (strip_one (e_path e))). set (sub := strip_one (e_path e)) in *.
    assert (Pp : prefix d p) by apply prefix_app.
    refine (hoare_bind _ _ (JL (l_created l) (x_files (l_index l))) (fun c => JL c (x_files (l_index l))) _ J _ _ _ _ s Hs).
    { apply hoare_mkdirp. exists p. split; [exact Pp|apply prefix_removelast]. }
    clear s Hs. intros created. destruct cached.
    - destruct (e_data e) as [c|]; [|apply hoare_fail; intros s H; apply H].
      apply hoare_bind with (Q := fun h s => JL created (x_files (l_index l)) s /\ newblob s h); [apply hoare_write|]. intros h.
      apply hoare_bind with (Q := fun _ s => JL created (x_files (l_index l)) s /\ newblob s h).
      { intros s [A B]. pose proof (hoare_efc created (x_files (l_index l)) h p (l_mode l) (entry_mode e) Pp s (conj A (or_intror B))) as E.
        pose proof (efc_cases xxh linkable reflinkable h p (l_mode l) (entry_mode e) s) as E2. destruct (efc h p (l_mode l) (entry_mode e) s) as [[a|er|] s']; [|exact E|exact E]. split; [exact E|].
        destruct (J_placed h p _ _ s s' (proj1 A) (or_intror B) Pp E2) as (_ & E3 & _). unfold newblob. now rewrite E3. }
      intros _.
      assert (Add : forall s, JL created (x_files (l_index l)) s /\ newblob s h -> JL created (sput sub (h, entry_mode e) (x_files (l_index l))) s).
      { intros s [(A1 & A2 & A3) B]. split; [exact A1|]. split; [exact A2|]. apply Forall_sput; [split; [exact He|exact B]|exact A3]. }
      destruct (String.eqb sub "package.json").
      + apply hoare_bind with (Q := fun _ s => JL created (x_files (l_index l)) s /\ newblob s h).
        { intros s [A B]. unfold read_file. destruct (s_file s p) as [i|]; [|apply A]. destruct (nth_error (s_inodes s) i) as [[c1 m1]|]; [split; [exact A|exact B]|apply A]. }
        intros text. destruct (manifest text) as [[sc bins]|] eqn:M; [|apply hoare_fail; intros s [A _]; apply A].
        assert (Bi : forall b b', Some (sc, bins) = Some (b, b') -> Forall tame b') by (intros b b' Eb; injection Eb as _ <-; now apply (Hbins _ _ _ M)).
        destruct sc.
        * destruct (is_copy (l_mode l)); [apply hoare_ret; intros s H; split; [now apply Add|exact Bi]|].
          apply hoare_bind with (Q := fun _ s => JL created (x_files (l_index l)) s /\ newblob s h).
          { cbn [x_files]. assert (G : forall todo, incl todo (x_files (l_index l)) -> hoare (fun s => JL created (x_files (l_index l)) s /\ newblob s h) (recopy xxh linkable reflinkable d todo Auto) (fun _ s => JL created (x_files (l_index l)) s /\ newblob s h) J); [|apply G, incl_refl].
            intros todo Hi s [A B]. assert (A' : JL created (sput sub (h, entry_mode e) (x_files (l_index l))) s) by (apply Add; auto).
            pose proof (hoare_recopy created (x_files (l_index l)) Auto todo Hi s A) as E1.
            assert (S : forall todo s, s_blob (snd (recopy xxh linkable reflinkable d todo Auto s)) = s_blob s).
            { clear. induction todo as [|[e [h m]] t IH]; intros s; [reflexivity|]. cbn [recopy]. unfold bind. unfold remove_file. destruct (s_file s _) as [i|]; [|reflexivity].
              set (s1 := set_file _ None s). pose proof (efc_cases xxh linkable reflinkable h (resolve (at_dir d e)) Auto m s1) as E. destruct (efc h _ Auto m s1) as [[a|er|] s']; [|subst; reflexivity|contradiction].
              rewrite IH. destruct E as (i' & c & m0 & _ & _ & [(_ & _ & ->)|[(_ & ->)|(j & _ & ->)]]); reflexivity. }
            specialize (S todo s). destruct (recopy xxh linkable reflinkable d todo Auto s) as [[a|er|] s']; [|exact E1|exact E1]. split; [exact E1|]. cbn in S. unfold newblob. now rewrite S. }
          intros _. apply hoare_ret. intros s H. split; [now apply Add|exact Bi].
        * apply hoare_ret. intros s H. split; [now apply Add|exact Bi].
      + apply hoare_ret. intros s H. split; [now apply Add|exact Hm].
    - intros s H. destruct (negb (exists_at s p) && parent_ok s p); [|apply H]. cbn [new_inode].
      assert (HJ : J (set_file p (Some (List.length (s_inodes s))) (set_inodes (s_inodes s ++ [(match e_data e with Some c => c | None => "" end, entry_mode e)]) s))).
      { apply J_file; [|exact Pp|intros i Ei; injection Ei as <-; apply H]. destruct H as [H _]. apply J_inodes; [exact H|rewrite app_length; pose proof (j_len _ H); lia|]. intros k Hk. apply nth_error_app1. pose proof (j_len _ H). lia. }
      destruct (e_data e); [|exact HJ]. split; [|exact Hm]. now apply (JL_same created (x_files (l_index l)) s).
  Qed.
  Lemma hoare_entries cached : forall es l, Forall tame_entry es ->
    hoare (okloop l) (extract_entries xxh linkable reflinkable blob_mode manifest d cached es l) okloop J.
  Proof.
    induction es as [|e es IH]; intros l F; cbn [extract_entries]; [now apply hoare_ret|]. inversion F as [|? ? F1 F2]; subst.
    apply hoare_bind with (Q := okloop); [now apply hoare_entry|]. intros l'. now apply IH.
  Qed.
  Lemma hoare_bins created files : forall bins, Forall tame bins -> hoare (JL created files) (mark_bins d bins) (fun _ => JL created files) J.
  Proof.
    induction bins as [|b t IH]; intros F; cbn [mark_bins]; [now apply hoare_ret|]. inversion F as [|? ? F1 F2]; subst. rewrite (at_dir_plain d b F1), resolve_plain.
    apply hoare_bind with (Q := fun _ => JL created files); [apply hoare_chmod, prefix_app|]. intros _. now apply IH.
  Qed.
  (** nothing below the destination before *)
  Definition fresh_dest : Prop := forall q, prefix d q -> s_file s0 q = None.
  Lemma J_start : fresh_dest -> J s0.
  Proof. intros F. constructor; auto. intros q i Hq. rewrite (F q Hq). discriminate. Qed.
  Lemma J_index k o s : J s -> J (set_index k o s).
  Proof. intros [A B C D E F]. now constructor. Qed.
  Theorem tarball_confined sri cached x bytes s1 : J s1 -> Forall tame_entry (fst (untar bytes)) ->
    match extract_tarball xxh linkable reflinkable blob_mode untar manifest d sri cached x bytes s1 with (Panic, _) => False | (_, s) => J s end.
  Proof.
    intros F T. unfold extract_tarball. destruct (untar bytes) as [es clean]. cbn [fst] in T.
    assert (H : hoare (JL [] []) (bind (mkdirp (map CNormal d) []) (fun created => bind (extract_entries xxh linkable reflinkable blob_mode manifest d cached es (mkLoop created x (mkIdx false [] []) None)) (fun l =>
      if negb clean then fail EIo else
      let bins := match l_mani l with Some (_, b) => b | None => [] end in
      bind (mark_bins d bins) (fun _ =>
      let sri := match sri with Some i => i | None => xxh bytes end in
      if cached then fun s => (Ok sri, set_index (tarball_key sri) (Some (Some (mkIdx (x_copy (l_index l)) (x_bins (l_index l) ++ bins) (x_files (l_index l))))) s)
      else ret sri)))) (fun _ => J) J).
    { apply hoare_bind with (Q := fun created => JL created []); [apply hoare_mkdirp; exists d; split; apply prefix_refl|]. intros created.
      apply hoare_bind with (Q := okloop).
      { apply hoare_weaken with (2 := fun s (H : JL created [] s) => conj H (fun b bins (E : None = Some (b, bins)) => match (ltac:(discriminate E) : False) with end) : okloop (mkLoop created x (mkIdx false [] []) None) s) (Q := okloop) (R := J); auto. now apply hoare_entries. }
      intros l. destruct (negb clean); [apply hoare_fail; intros s [H _]; apply H|]. cbv zeta.
      apply hoare_bind with (Q := fun _ => J).
      { intros s [H1 H2]. assert (Tb : Forall tame (match l_mani l with Some (_, b) => b | None => [] end)) by (destruct (l_mani l) as [[b bins]|] eqn:Em; [now apply (H2 b)|constructor]).
        pose proof (hoare_bins _ _ _ Tb s H1) as E. destruct (mark_bins d _ s) as [[a|er|] s']; [apply E|exact E|exact E]. }
      intros _. destruct cached; [|now apply hoare_ret]. intros s H. now apply J_index. }
    assert (S0 : JL [] [] s1) by (split; [exact F|split; [intros k q []|constructor]]).
    specialize (H s1 S0). change (mkdirp_op (map CNormal d) []) with (mkdirp (map CNormal d) []). cbv zeta in *.
    destruct (bind _ _ s1) as [[a|e|] s']; exact H.
  Qed.
  Theorem stream_confined sri cached x ev s1 : J s1 -> (forall bytes, received ev = Some bytes -> Forall tame_entry (fst (untar bytes))) ->
    match extract_stream check limit xxh linkable reflinkable blob_mode untar manifest d sri cached x ev s1 with (Panic, _) => False | (_, s) => J s end.
  Proof.
    intros F T. unfold extract_stream. rewrite into_temp_ok. destruct (received ev) as [r|]; [|exact F].
    destruct (verdict_of check _ r); [|exact F]. replace (temp_bytes _) with r by (destruct (limit <? String.length r)%nat; reflexivity). apply tarball_confined; auto.
  Qed.
  (** from the cache, by copying *)
  Lemma hoare_warm bins x : is_copy x = true -> forall files created, Forall (fun f : string * (string * nat) => tame (fst f)) files ->
    hoare (JL created []) (warm_files xxh linkable reflinkable d bins files x created) (fun _ => J) J.
  Proof.
    intros Hx. induction files as [|[e [h m]] t IH]; intros created F; cbn [warm_files]; [apply hoare_ret; intros s H; apply H|].
    inversion F as [|? ? F1 F2]; subst. cbn in F1. rewrite (at_dir_plain d e F1), sparent_plain, resolve_plain.
    apply hoare_bind with (Q := fun c => JL c []); [apply hoare_mkdirp; exists (d ++ names e); split; [apply prefix_app|apply prefix_removelast]|]. intros c.
    apply hoare_bind with (Q := fun _ => JL c []); [|intros _; now apply IH]. intros s H. apply (hoare_efc c [] h (d ++ names e) x _ (prefix_app _ _) s). auto.
  Qed.
  Theorem warm_confined idx files x : fresh_dest -> is_copy x = true \/ x_copy idx = true -> Forall (fun f : string * (string * nat) => tame (fst f)) files ->
    match warm xxh linkable reflinkable d idx files x s0 with (Panic, _) => False | (_, s) => J s end.
  Proof.
    intros F Hx T. unfold warm. assert (S0 : JL [] [] s0) by (split; [now apply J_start|split; [intros k q []|constructor]]).
    assert (Hm : is_copy (warm_mode idx x) = true) by (unfold warm_mode; destruct (x_copy idx), (is_copy x) eqn:Ex; cbn; auto; destruct Hx; congruence).
    pose proof (hoare_warm (x_bins idx) _ Hm files [] T s0 S0) as E. destruct (warm_files _ _ _ _ _ _ _ _ s0) as [[a|e|] s']; exact E.
  Qed.
  Lemma J_clean files : forall s, J s -> J (snd (clean_blobs files s)) /\ fst (clean_blobs files s) = Ok tt.
  Proof.
    induction files as [|[e [h m]] t IH]; intros s H; cbn [clean_blobs]; [split; [exact H|reflexivity]|]. apply IH. destruct H as [A B C D E F]. now constructor.
  Qed.
  Theorem extract_confined fetch order sri cached x : fresh_dest ->
    (forall ev bytes, fetch = Some ev -> received ev = Some bytes -> Forall tame_entry (fst (untar bytes))) ->
    (forall i idx, sri = Some i -> s_index s0 (tarball_key i) = Some (Some idx) -> (is_copy x = true \/ x_copy idx = true) /\ Forall (fun f => tame (fst f)) (order idx)) ->
    match extract_to_dir check limit xxh linkable reflinkable blob_mode untar manifest fetch order d sri cached x s0 with (Panic, _) => False | (_, s) => J s end.
  Proof.
    intros F T W.
    assert (FE : forall o s1, J s1 -> match fetch_extract check limit xxh linkable reflinkable blob_mode untar manifest fetch d o cached x s1 with (Panic, _) => False | (_, s) => J s end).
    { intros o s1 HJ. unfold fetch_extract. destruct fetch as [ev|]; [|exact HJ]. apply stream_confined; [exact HJ|]. intros b. now apply T. }
    unfold extract_to_dir. destruct sri as [i|]; [|now apply FE, J_start]. destruct cached; [|now apply FE, J_start].
    destruct (s_index s0 (tarball_key i)) as [[idx|]|] eqn:I; [|now apply J_start|now apply FE, J_start].
    destruct (W i idx eq_refl I) as [W1 W2]. pose proof (warm_confined idx (order idx) x F W1 W2) as E. destruct (warm _ _ _ _ _ _ _ s0) as [[a|e|] s']; [exact E| |contradiction].
    unfold bind, clean_from_cache. destruct (J_clean (x_files idx) s' E) as [E1 E2]. unfold bind. destruct (clean_blobs (x_files idx) s') as [r s2]. cbn in E1, E2. subst r.
    apply FE. now apply J_index.
  Qed.
End Confine.
