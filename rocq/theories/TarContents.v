(** * What extraction puts below the destination, proofs *)
From Verif Require Import Base Types StdPath Fs TarModel TarStream TarProofs.
Open Scope string_scope.
Open Scope list_scope.

(** a file of a package: its path below the destination as text, its contents, its mode *)
Definition item := (string * (string * nat))%type.
Definition items (es : list entry) : list item :=
  flat_map (fun e => if e_regular e then match e_data e with Some c => [(strip_one (e_path e), (c, entry_mode e))] | None => [] end else []) es.
Definition i_data (it : item) : string := fst (snd it).
Definition i_mode (it : item) : nat := snd (snd it).
Definition tgt (d : path) (it : item) : path := d ++ names (fst it).
Definition idx_of (xxh : string -> string) (it : item) : string * (string * nat) := (fst it, (xxh (i_data it), i_mode it)).
Lemma sput_new V k (v : V) l : ~ In k (map fst l) -> sput k v l = l ++ [(k, v)].
Proof.
  induction l as [|[k' v'] l IH]; intros H; cbn in *; [reflexivity|]. destruct (String.eqb_spec k k') as [->|_]; [tauto|]. now rewrite IH by tauto.
Qed.
(** the part of [manifest] kept while extracting *)
Definition mani_of (manifest : string -> option (bool * list string)) (done : list item) : option (bool * list string) :=
  match find (fun it => String.eqb (fst it) "package.json") done with Some it => manifest (i_data it) | None => None end.

Lemma create_all_no_panic l : forall k s s', create_all_from k l s <> (Panic, s').
Proof. induction l as [|c l IH]; intros k s s'; cbn [create_all_from]; [discriminate|]. destruct (s_dir s _); [apply IH|]. destruct (exists_at s _); [discriminate|apply IH]. Qed.
Lemma mkdirp_no_panic p created s s' : mkdirp p created s <> (Panic, s').
Proof.
  unfold mkdirp. destruct (known p created); [discriminate|]. destruct (match p with [] => true | _ => _ end).
  - unfold create_dir. destruct (negb _ && _); discriminate.
  - unfold create_dir_all. destruct (create_all_from [] p s) as [[a|e|] s2] eqn:E; [discriminate|discriminate|]. now apply create_all_no_panic in E.
Qed.

Lemma nth_error_app1_some A (l l2 : list A) k v : nth_error l k = Some v -> nth_error (l ++ l2) k = Some v.
Proof. intros H. rewrite nth_error_app1; [exact H|]. apply nth_error_Some. rewrite H. discriminate. Qed.
Section Cold.
  Variable xxh : string -> string.
  Variables linkable reflinkable : bool.
  Variable blob_mode : nat.
  Variable manifest : string -> option (bool * list string).
  Notation efc := (extract_from_cache xxh linkable reflinkable).
  Variables (d : path) (s1 : st) (all : list item).
  Notation n1 := (List.length (s_inodes s1)).
  Hypothesis Htame : Forall (fun it => tame (fst it)) all.
  Hypothesis Hdistinct : NoDup (map (fun it => names (fst it)) all).
  (** no two different contents of the package have the same hash *)
  Hypothesis Hhash : forall a b, In a all -> In b all -> xxh (i_data a) = xxh (i_data b) -> i_data a = i_data b.
  (** files already at the place of package files: only files of equal contents share an inode *)
  Hypothesis Hwf : forall it i, In it all -> s_file s1 (tgt d it) = Some i -> i < n1.
  Hypothesis Hshare : forall a b i, In a all -> In b all -> s_file s1 (tgt d a) = Some i -> s_file s1 (tgt d b) = Some i -> i_data a = i_data b.

  Record K (done : list item) (hole : option path) (s : st) : Prop := mkK {
    k_len : n1 <= List.length (s_inodes s);
    k_file : forall q, ~ In q (map (tgt d) done) -> s_file s q = s_file s1 q;
    k_done : forall it, In it done -> hole <> Some (tgt d it) -> exists i m, s_file s (tgt d it) = Some i /\ nth_error (s_inodes s) i = Some (i_data it, m) /\ (n1 <= i \/ s_file s1 (tgt d it) = Some i);
    k_hole : forall p, hole = Some p -> s_file s p = None \/ s_file s p = s_file s1 p;
    k_old : forall j c m, nth_error (s_inodes s1) j = Some (c, m) -> exists c' m', nth_error (s_inodes s) j = Some (c', m') /\
              (c' = c \/ exists it, In it done /\ c' = i_data it /\ s_file s1 (tgt d it) = Some j);
    k_blob : forall it, In it done -> hole <> Some (tgt d it) -> exists i a m, s_blob s (xxh (i_data it)) = Some i /\ n1 <= i /\ nth_error (s_inodes s) i = Some (i_data a, m) /\ In a all /\ xxh (i_data a) = xxh (i_data it);
    k_oblob : forall h, ~ In h (map (fun it => xxh (i_data it)) done) -> s_blob s h = s_blob s1 h;
    k_index : s_index s = s_index s1 }.
  Lemma tgt_inj a b : In a all -> In b all -> tgt d a = tgt d b -> a = b.
  Proof.
    intros Ha Hb E. unfold tgt in E. apply app_inv_head in E. revert Ha Hb E. generalize Hdistinct. clear. induction all as [|x l IH]; intros N Ha Hb E; [contradiction|].
    cbn in N. inversion N as [|? ? N1 N2]; subst. destruct Ha as [<-|Ha], Hb as [<-|Hb]; auto.
    - exfalso. apply N1. rewrite E. apply in_map_iff. now exists b.
    - exfalso. apply N1. rewrite <- E. apply in_map_iff. now exists a.
  Qed.
  Lemma K_grow done hole s s' : K done hole s -> dirs_grow s s' -> K done hole s'.
  Proof. intros [A B C D E F G H] [G1 G2 G3 G4 G5]. constructor; rewrite ?G1, ?G2, ?G3, ?G4; auto. Qed.
  (** filling the hole *)
  Lemma K_place done it x mode s s' : incl done all -> In it done -> K done (Some (tgt d it)) s -> placed xxh (xxh (i_data it)) (tgt d it) x mode s s' ->
    (exists i a m, s_blob s (xxh (i_data it)) = Some i /\ n1 <= i /\ nth_error (s_inodes s) i = Some (i_data a, m) /\ In a all /\ xxh (i_data a) = xxh (i_data it)) ->
    K done None s' /\ s_dir s' = s_dir s.
  Proof.
    intros Hincl Hit HK (i & c & m0 & B & _ & P) (i' & a & m & B1 & B2 & B3 & B4 & B5). apply blob_spec in B. destruct B as (B6 & B7 & B8).
    assert (i' = i) by congruence. subst i'. rewrite B3 in B7. injection B7 as <- <-. assert (Ec : i_data a = i_data it) by (apply Hhash; auto). rewrite Ec in *. clear a Ec B4 B5.
    destruct HK as [A1 A2 A3 A4 A5 A6 A7 A8].
    assert (Oth : forall it', In it' done -> tgt d it' <> tgt d it -> Some (tgt d it) <> Some (tgt d it')) by congruence.
    assert (Hi : i < List.length (s_inodes s)) by (apply nth_error_Some; rewrite B3; discriminate).
    destruct P as [(P1 & P2 & ->)|[(P1 & ->)|(j & P1 & ->)]].
    - split; [|reflexivity].
      assert (N : forall k c' m', nth_error (s_inodes s) k = Some (c', m') -> exists m2, nth_error (if Nat.eqb mode m644 then s_inodes s else lset (s_inodes s) i (i_data it, mode)) k = Some (c', m2)).
      { intros k c' m' Hk. destruct (Nat.eqb mode m644); [eauto|]. destruct (Nat.eq_dec i k) as [<-|Ne]; [|rewrite nth_lset_neq by auto; eauto]. rewrite nth_lset_eq by exact Hi. rewrite B3 in Hk. injection Hk as <- <-. eauto. }
      constructor; cbn [s_inodes s_file s_blob s_index set_inodes set_file].
      + destruct (Nat.eqb mode m644); [exact A1|now rewrite lset_length].
      + intros q Hq. rewrite upd_neq; [now apply A2|]. intros ->. apply Hq. now apply in_map.
      + intros it' H' _. destruct (path_eq_dec (tgt d it') (tgt d it)) as [E|E].
        * rewrite E, upd_eq. rewrite (tgt_inj it' it) by auto. destruct (N i _ _ B3) as [m2 Hm]. exists i, m2. auto 12.
        * rewrite upd_neq by exact E. destruct (A3 it' H' (Oth it' H' E)) as (k & m' & C1 & C2 & C3). destruct (N k _ _ C2) as [m2 Hm]. eauto.
      + discriminate.
      + intros j c' m' Hj. destruct (A5 j c' m' Hj) as (c2 & m2 & C1 & C2). destruct (N j _ _ C1) as [m3 Hm]. eauto.
      + intros it' H' _. destruct (path_eq_dec (tgt d it') (tgt d it)) as [E|E].
        * rewrite (tgt_inj it' it) by auto. destruct (N i _ _ B3) as [m2 Hm]. exists i, it, m2. auto 12.
        * destruct (A6 it' H' (Oth it' H' E)) as (k & a & m' & C1 & C2 & C3 & C4 & C5). destruct (N k _ _ C3) as [m2 Hm]. exists k, a, m2. auto 12.
      + exact A7.
      + exact A8.
    - split; [|reflexivity].
      assert (N : forall k v, nth_error (s_inodes s) k = Some v -> nth_error (s_inodes s ++ [(i_data it, mode_of mode m)]) k = Some v).
      { intros k v Hk. rewrite nth_error_app1; [exact Hk|]. apply nth_error_Some. rewrite Hk. discriminate. }
      constructor; cbn [s_inodes s_file s_blob s_index set_inodes set_file].
      + rewrite app_length. lia.
      + intros q Hq. rewrite upd_neq; [now apply A2|]. intros ->. apply Hq. now apply in_map.
      + intros it' H' _. destruct (path_eq_dec (tgt d it') (tgt d it)) as [E|E].
        * rewrite E, upd_eq. rewrite (tgt_inj it' it) by auto. exists (List.length (s_inodes s)), (mode_of mode m). rewrite nth_snoc. auto.
        * rewrite upd_neq by exact E. destruct (A3 it' H' (Oth it' H' E)) as (k & m' & C1 & C2 & C3). exists k, m'. auto 12.
      + discriminate.
      + intros j c' m' Hj. destruct (A5 j c' m' Hj) as (c2 & m2 & C1 & C2). exists c2, m2. auto.
      + intros it' H' _. destruct (path_eq_dec (tgt d it') (tgt d it)) as [E|E].
        * rewrite (tgt_inj it' it) by auto. exists i, it, m. auto 12.
        * destruct (A6 it' H' (Oth it' H' E)) as (k & a & m' & C1 & C2 & C3 & C4 & C5). exists k, a, m'. auto 12.
      + exact A7.
      + exact A8.
    - split; [|reflexivity].
      assert (Fj : s_file s1 (tgt d it) = Some j) by (destruct (A4 _ eq_refl) as [E|E]; congruence).
      assert (Lj : j < n1) by (apply (Hwf it); [now apply Hincl|exact Fj]). assert (Ne : Nat.eqb i j = false) by (apply Nat.eqb_neq; lia). rewrite Ne.
      assert (N : forall k v, k <> j -> nth_error (s_inodes s) k = Some v -> nth_error (lset (s_inodes s) j (i_data it, mode_of mode m)) k = Some v).
      { intros k v Hk Hv. now rewrite nth_lset_neq by auto. }
      assert (Nj : nth_error (lset (s_inodes s) j (i_data it, mode_of mode m)) j = Some (i_data it, mode_of mode m)) by (apply nth_lset_eq; lia).
      constructor; cbn [s_inodes s_file s_blob s_index set_inodes set_file].
      + now rewrite lset_length.
      + exact A2.
      + intros it' H' _. destruct (path_eq_dec (tgt d it') (tgt d it)) as [E|E].
        * rewrite (tgt_inj it' it) by auto. exists j, (mode_of mode m). auto 12.
        * destruct (A3 it' H' (Oth it' H' E)) as (k & m' & C1 & C2 & C3). destruct (Nat.eq_dec k j) as [->|Nk]; [|exists k, m'; auto].
          exists j, (mode_of mode m). destruct C3 as [C3|C3]; [lia|]. rewrite (Hshare it' it j) by auto. auto.
      + discriminate.
      + intros k c' m' Hk. destruct (A5 k c' m' Hk) as (c2 & m2 & C1 & C2). destruct (Nat.eq_dec k j) as [->|Nk]; [|exists c2, m2; auto].
        exists (i_data it), (mode_of mode m). split; [exact Nj|]. right. exists it. auto.
      + intros it' H' _. destruct (path_eq_dec (tgt d it') (tgt d it)) as [E|E].
        * rewrite (tgt_inj it' it) by auto. exists i, it, m. split; [exact B6|]. split; [exact B2|]. split; [|auto]. apply N; [lia|exact B3].
        * destruct (A6 it' H' (Oth it' H' E)) as (k & a & m' & C1 & C2 & C3 & C4 & C5). exists k, a, m'. split; [exact C1|]. split; [exact C2|]. split; [|auto]. apply N; [lia|exact C3].
      + exact A7.
      + exact A8.
  Qed.
  (** a further package file, its contents just written to the cache *)
  Lemma K_write done it s : incl (done ++ [it]) all -> ~ In (tgt d it) (map (tgt d) done) -> K done None s ->
    let s' := set_blob (xxh (i_data it)) (Some (List.length (s_inodes s))) (set_inodes (s_inodes s ++ [(i_data it, blob_mode)]) s) in
    K (done ++ [it]) (Some (tgt d it)) s' /\
    exists i a m, s_blob s' (xxh (i_data it)) = Some i /\ n1 <= i /\ nth_error (s_inodes s') i = Some (i_data a, m) /\ In a all /\ xxh (i_data a) = xxh (i_data it).
  Proof.
    intros Hincl Hnew [A1 A2 A3 A4 A5 A6 A7 A8]. cbv zeta.
    assert (Hit : In it all) by (apply Hincl; apply in_or_app; right; now left).
    assert (N : forall k v, nth_error (s_inodes s) k = Some v -> nth_error (s_inodes s ++ [(i_data it, blob_mode)]) k = Some v).
    { intros k v Hk. rewrite nth_error_app1; [exact Hk|]. apply nth_error_Some. rewrite Hk. discriminate. }
    assert (Bn : exists i a m, supd (xxh (i_data it)) (Some (List.length (s_inodes s))) (s_blob s) (xxh (i_data it)) = Some i /\ n1 <= i /\
        nth_error (s_inodes s ++ [(i_data it, blob_mode)]) i = Some (i_data a, m) /\ In a all /\ xxh (i_data a) = xxh (i_data it)).
    { exists (List.length (s_inodes s)), it, blob_mode. unfold supd. rewrite String.eqb_refl, nth_snoc. auto 12. }
    split; [|exact Bn].
    assert (InD : forall it', In it' (done ++ [it]) -> Some (tgt d it) <> Some (tgt d it') -> In it' done).
    { intros it' H Hn. apply in_app_or in H. destruct H as [H|[<-|[]]]; [exact H|contradiction]. }
    constructor; cbn [s_inodes s_file s_blob s_index set_inodes set_file set_blob].
    - rewrite app_length. lia.
    - intros q Hq. apply A2. intros H. apply Hq. rewrite map_app. apply in_or_app. now left.
    - intros it' H Hn. destruct (A3 it' (InD it' H Hn) ltac:(discriminate)) as (k & m & C1 & C2 & C3). exists k, m. auto 12.
    - intros p E. injection E as <-. right. now apply A2.
    - intros j c m Hj. destruct (A5 j c m Hj) as (c' & m' & C1 & C2). exists c', m'. split; [auto|]. destruct C2 as [C2|(it' & C2 & C3)]; [now left|]. right. exists it'. split; [apply in_or_app; now left|exact C3].
    - intros it' H Hn. destruct (A6 it' (InD it' H Hn) ltac:(discriminate)) as (k & a & m & C1 & C2 & C3 & C4 & C5). unfold supd. destruct (String.eqb_spec (xxh (i_data it')) (xxh (i_data it))) as [E|E].
      + exists (List.length (s_inodes s)), it, blob_mode. rewrite nth_snoc. auto 12.
      + exists k, a, m. auto 12.
    - intros h Hh. rewrite map_app, in_app_iff in Hh. unfold supd. destruct (String.eqb_spec h (xxh (i_data it))) as [->|E]; [exfalso; apply Hh; right; now left|]. apply A7. tauto.
    - exact A8.
  Qed.
  Lemma K_remove done it s : incl done all -> In it done -> K done None s -> K done (Some (tgt d it)) (set_file (tgt d it) None s).
  Proof.
    intros Hincl Hit [A1 A2 A3 A4 A5 A6 A7 A8]. constructor; cbn [s_inodes s_file s_blob s_index set_file]; auto.
    - intros q Hq. rewrite upd_neq; [now apply A2|]. intros ->. apply Hq. now apply in_map.
    - intros it' H Hn. rewrite upd_neq by congruence. apply A3; [exact H|discriminate].
    - intros p E. injection E as <-. left. apply upd_eq.
    - intros it' H Hn. apply A6; [exact H|discriminate].
  Qed.
  Lemma hoare_efc_K done it x mode (D : path -> bool) : incl done all -> In it done ->
    hoare (fun s => K done (Some (tgt d it)) s /\ s_dir s = D /\ exists i a m, s_blob s (xxh (i_data it)) = Some i /\ n1 <= i /\ nth_error (s_inodes s) i = Some (i_data a, m) /\ In a all /\ xxh (i_data a) = xxh (i_data it))
      (efc (xxh (i_data it)) (tgt d it) x mode) (fun _ s => K done None s /\ s_dir s = D) (fun _ => True).
  Proof.
    intros Hi Hit s (HK & HD & HB). pose proof (efc_cases xxh linkable reflinkable (xxh (i_data it)) (tgt d it) x mode s) as E. destruct (efc _ _ x mode s) as [[a|e|] s']; [|exact I|contradiction].
    destruct (K_place done it x mode s s' Hi Hit HK E HB) as [K' E']. split; [exact K'|congruence].
  Qed.
  Lemma hoare_recopy_K done x (D : path -> bool) : incl done all -> forall todo, incl todo done ->
    hoare (fun s => K done None s /\ s_dir s = D) (recopy xxh linkable reflinkable d (map (idx_of xxh) todo) x) (fun _ s => K done None s /\ s_dir s = D) (fun _ => True).
  Proof.
    intros Hi. induction todo as [|it t IH]; intros Ht; cbn [map recopy]; [now apply hoare_ret|]. unfold idx_of at 1.
    assert (Hit : In it done) by (apply Ht; now left). assert (Tm : tame (fst it)) by (rewrite Forall_forall in Htame; apply Htame; now apply Hi).
    rewrite (at_dir_plain d (fst it) Tm), resolve_plain. fold (tgt d it).
    apply hoare_bind with (Q := fun _ s => K done (Some (tgt d it)) s /\ s_dir s = D /\ exists i a m, s_blob s (xxh (i_data it)) = Some i /\ n1 <= i /\ nth_error (s_inodes s) i = Some (i_data a, m) /\ In a all /\ xxh (i_data a) = xxh (i_data it)).
    - intros s [HK HD]. unfold remove_file. destruct (s_file s (tgt d it)); [|exact I]. split; [now apply K_remove|]. split; [exact HD|]. now apply (k_blob _ _ _ HK it).
    - intros _. apply hoare_bind with (Q := fun _ s => K done None s /\ s_dir s = D); [now apply hoare_efc_K|]. intros _. apply IH. intros y Hy. apply Ht. now right.
  Qed.
  (** directories *)
  Definition dirs_of (done : list item) (s : st) : Prop :=
    forall q, s_dir s q = true <-> s_dir s1 q = true \/ (q <> [] /\ (prefix q d \/ exists it, In it done /\ prefix q (removelast (tgt d it)))).
  Definition okB (l : loop) (done : list item) (s : st) : Prop :=
    K done None s /\ created_ok (l_created l) s /\ dirs_of done s /\ x_files (l_index l) = map (idx_of xxh) done /\ x_bins (l_index l) = [] /\
    l_mani l = mani_of manifest done /\ x_copy (l_index l) = match mani_of manifest done with Some (b, _) => b | None => false end /\
    (forall it, In it done -> fst it = "package.json" -> manifest (i_data it) <> None).
  Lemma find_app A (f : A -> bool) l1 l2 : find f (l1 ++ l2) = match find f l1 with Some x => Some x | None => find f l2 end.
  Proof. induction l1 as [|a l1 IH]; cbn; [reflexivity|]. now destruct (f a). Qed.
  Lemma find_none done : (forall it, In it done -> fst it <> "package.json") -> find (fun it : item => String.eqb (fst it) "package.json") done = None.
  Proof.
    induction done as [|it t IH]; intros H; [reflexivity|]. cbn. destruct (String.eqb_spec (fst it) "package.json") as [E|E]; [exfalso; apply (H it); [now left|exact E]|]. apply IH. intros x Hx. apply H. now right.
  Qed.
  Lemma nodup_new done it rest : done ++ it :: rest = all -> ~ In (names (fst it)) (map (fun it => names (fst it)) done).
  Proof.
    intros E. pose proof Hdistinct as N. rewrite <- E, map_app in N. cbn in N. apply NoDup_remove_2 in N. intros H. apply N. apply in_or_app. now left.
  Qed.
  Lemma hoare_entry_B e l done rest : e_regular e = true -> forall c, e_data e = Some c ->
    let it := (strip_one (e_path e), (c, entry_mode e)) in
    done ++ it :: rest = all ->
    hoare (okB l done) (extract_entry xxh linkable reflinkable blob_mode manifest d true e l) (fun l' => okB l' (done ++ [it])) (fun _ => True).
  Proof.
    intros R c Ec it Eall. unfold extract_entry. rewrite R, Ec. change (strip_one (e_path e)) with (fst it). change (entry_mode e) with (i_mode it). change c with (i_data it).
    clearbody it. clear R Ec c.
    assert (Hin : In it all) by (rewrite <- Eall; apply in_or_app; right; now left).
    assert (Hincl : incl (done ++ [it]) all) by (rewrite <- Eall; intros y Hy; apply in_app_or in Hy; apply in_or_app; destruct Hy as [Hy|[<-|[]]]; [now left|right; now left]).
    assert (Hincl0 : incl done all) by (intros y Hy; apply Hincl; apply in_or_app; now left).
    assert (Hit : In it (done ++ [it])) by (apply in_or_app; right; now left).
    assert (Tm : tame (fst it)) by (rewrite Forall_forall in Htame; now apply Htame).
    pose proof (nodup_new done it rest Eall) as Hn.
    assert (Hn2 : ~ In (tgt d it) (map (tgt d) done)).
    { intros H. apply in_map_iff in H. destruct H as (y & Ey & Hy). unfold tgt in Ey. apply app_inv_head in Ey. apply Hn. rewrite <- Ey. apply in_map_iff. now exists y. }
    assert (Hn3 : ~ In (fst it) (map fst (map (idx_of xxh) done))).
    { rewrite map_map. intros H. apply in_map_iff in H. destruct H as (y & Ey & Hy). apply Hn. rewrite <- Ey. apply in_map_iff. now exists y. }
    rewrite (at_dir_plain d _ Tm), sparent_plain, resolve_plain. fold (tgt d it).
    intros s (HK & HC & HD & HX & HXb & HM & HXc & HP).
    assert (ND : forall s', (forall q, s_dir s' q = true <-> s_dir s q = true \/ (q <> [] /\ prefix q (removelast (tgt d it)))) -> dirs_of (done ++ [it]) s').
    { intros s' H q. rewrite H, (HD q). split.
      - intros [[H1|[H1 [H2|(y & H2 & H3)]]]|[H1 H2]]; [now left|right; auto| |].
        + right. split; [exact H1|]. right. exists y. split; [apply in_or_app; now left|exact H3].
        + right. split; [exact H1|]. right. exists it. auto.
      - intros [H1|[H1 [H2|(y & H2 & H3)]]]; [auto|auto|]. apply in_app_or in H2. destruct H2 as [H2|[<-|[]]]; [|auto]. left. right. split; [exact H1|]. right. now exists y. }
    unfold bind at 1. change (mkdirp_op (map CNormal (removelast (tgt d it))) (l_created l) s) with (mkdirp (map CNormal (removelast (tgt d it))) (l_created l) s).
    pose proof (mkdirp_plain (removelast (tgt d it)) (l_created l) s HC) as MK. destruct (mkdirp _ (l_created l) s) as [[created|er|] s2]; [|exact I|contradiction].
    destruct MK as (G & C1 & C2 & C3 & C4). specialize (ND s2 C4). apply (K_grow _ _ s s2) in HK; [|exact G]. clear HD C4 C2 C3 G HC s.
    (* the cache *)
    unfold bind at 1. unfold write_blob. cbn [new_inode]. pose proof (K_write done it s2 Hincl Hn2 HK) as W. cbv zeta in W.
    set (s3 := set_blob (xxh (i_data it)) (Some (List.length (s_inodes s2))) (set_inodes (s_inodes s2 ++ [(i_data it, blob_mode)]) s2)) in *.
    destruct W as [HK3 HB3].
    unfold bind at 1. pose proof (hoare_efc_K (done ++ [it]) it (l_mode l) (i_mode it) (s_dir s3) Hincl Hit s3 (conj HK3 (conj eq_refl HB3))) as EF.
    destruct (efc (xxh (i_data it)) (tgt d it) (l_mode l) (i_mode it) s3) as [[u|er|] s4]; [|exact I|contradiction]. destruct EF as [HK4 HD4].
    assert (Fin : forall l' s5, K (done ++ [it]) None s5 -> s_dir s5 = s_dir s3 -> l_created l' = created -> x_files (l_index l') = sput (fst it) (xxh (i_data it), i_mode it) (x_files (l_index l)) ->
       x_bins (l_index l') = x_bins (l_index l) ->
       l_mani l' = mani_of manifest (done ++ [it]) -> x_copy (l_index l') = match mani_of manifest (done ++ [it]) with Some (b, _) => b | None => false end ->
       (fst it = "package.json" -> manifest (i_data it) <> None) -> okB l' (done ++ [it]) s5).
    { intros l' s5 F1 F2 F3 F4 F5 F6 F7 F8. split; [exact F1|]. split; [rewrite F3; unfold created_ok in *; rewrite F2; exact C1|]. split; [unfold dirs_of in *; rewrite F2; exact ND|].
      split; [rewrite F4, HX, map_app, sput_new by exact Hn3; reflexivity|]. split; [now rewrite F5|]. split; [exact F6|]. split; [exact F7|].
      intros y Hy. apply in_app_or in Hy. destruct Hy as [Hy|[<-|[]]]; [now apply HP|exact F8]. }
    destruct (String.eqb_spec (fst it) "package.json") as [Ep|Ep].
    - assert (Mn : mani_of manifest (done ++ [it]) = manifest (i_data it)).
      { unfold mani_of. rewrite find_app, find_none.
        - cbn [find]. rewrite Ep, String.eqb_refl. reflexivity.
        - intros y Hy E. apply Hn. rewrite Ep, <- E. apply in_map_iff. now exists y. }
      assert (Mo : mani_of manifest done = None).
      { unfold mani_of. rewrite find_none; [reflexivity|]. intros y Hy E. apply Hn. rewrite Ep, <- E. apply in_map_iff. now exists y. }
      unfold bind at 1. unfold read_file. destruct (k_done _ _ _ HK4 it Hit ltac:(discriminate)) as (i & m & Q1 & Q2 & _). rewrite Q1, Q2.
      destruct (manifest (i_data it)) as [[sc bins]|] eqn:Mi; [|exact I]. destruct sc.
      + destruct (is_copy (l_mode l)).
        * cbn [ret]. apply Fin; cbn; auto; try congruence; now rewrite Mn.
        * unfold bind. cbn [x_files]. rewrite HX.
          pose proof (hoare_recopy_K (done ++ [it]) Auto (s_dir s3) Hincl done (fun y Hy => in_or_app _ _ _ (or_introl Hy)) s4 (conj HK4 HD4)) as RC.
          destruct (recopy xxh linkable reflinkable d (map (idx_of xxh) done) Auto s4) as [[u2|er|] s5]; [|exact I|contradiction]. destruct RC as [HK5 HD5].
          cbn [ret]. apply Fin; cbn; auto; try congruence; now rewrite Mn.
      + cbn [ret]. apply Fin; cbn; auto; try congruence; try now rewrite Mn. rewrite HXc, Mo, Mn. reflexivity.
    - assert (Mn : mani_of manifest (done ++ [it]) = mani_of manifest done).
      { unfold mani_of. rewrite find_app. destruct (find _ done); [reflexivity|]. cbn [find]. destruct (String.eqb_spec (fst it) "package.json"); [contradiction|reflexivity]. }
      cbn [ret]. apply Fin; cbn; auto; try congruence. now rewrite Mn.
  Qed.
  Lemma hoare_entries_B : forall es l done, done ++ items es = all ->
    hoare (okB l done) (extract_entries xxh linkable reflinkable blob_mode manifest d true es l) (fun l' s => okB l' all s /\ Forall (fun e => e_data e <> None) es) (fun _ => True).
  Proof.
    induction es as [|e es IH]; intros l done E; cbn [extract_entries].
    - cbn in E. rewrite app_nil_r in E. subst. apply hoare_ret. auto.
    - assert (W : forall l' done', done' ++ items es = all -> e_data e <> None ->
        hoare (okB l' done') (extract_entries xxh linkable reflinkable blob_mode manifest d true es l') (fun l'' s => okB l'' all s /\ Forall (fun e => e_data e <> None) (e :: es)) (fun _ => True)).
      { intros l' done' E' Hd. apply hoare_weaken with (1 := IH l' done' E'); auto. intros a s [A B]. split; [exact A|]. now constructor. }
      cbn [items flat_map] in E. destruct (e_regular e) eqn:R.
      + destruct (e_data e) as [c|] eqn:D.
        * apply hoare_bind with (Q := fun l' => okB l' (done ++ [(strip_one (e_path e), (c, entry_mode e))])).
          -- apply (hoare_entry_B e l done (items es) R c D). exact E.
          -- intros l'. apply W; [rewrite <- app_assoc; exact E|congruence].
        * intros s Hs. unfold bind, extract_entry. rewrite R, D. unfold bind. change (mkdirp_op ?a ?b s) with (mkdirp a b s).
          destruct Hs as (HK & HC & _). destruct (mkdirp _ (l_created l) s) as [[cr|er|] s2] eqn:MK; [exact I|exact I|].
          now apply mkdirp_no_panic in MK.
      + intros s Hs. unfold bind, extract_entry. rewrite R. destruct (e_data e) as [c|] eqn:D; [|exact I]. cbn [ret]. apply (W l done E); [congruence|exact Hs].
  Qed.
  Lemma K_chmod f p done : hoare (fun s => K done None s /\ dirs_of done s) (chmod f p) (fun _ s => K done None s /\ dirs_of done s) (fun _ => True).
  Proof.
    intros s [[A1 A2 A3 A4 A5 A6 A7 A8] HD]. unfold chmod. destruct (s_file s p) as [i|]; [|destruct (s_dir s p); [split; [now constructor|exact HD]|exact I]].
    destruct (nth_error (s_inodes s) i) as [[c m]|] eqn:Ei; [|exact I]. split; [|exact HD].
    assert (N : forall k c' m', nth_error (s_inodes s) k = Some (c', m') -> exists m2, nth_error (lset (s_inodes s) i (c, f m)) k = Some (c', m2)).
    { intros k c' m' Hk. destruct (Nat.eq_dec i k) as [<-|Ne]; [|rewrite nth_lset_neq by auto; eauto]. rewrite nth_lset_eq by (apply nth_error_Some; rewrite Ei; discriminate). rewrite Ei in Hk. injection Hk as <- <-. eauto. }
    constructor; cbn [s_inodes s_file s_blob s_index set_inodes]; auto.
    - now rewrite lset_length.
    - intros it H1 H2. destruct (A3 it H1 H2) as (k & m' & C1 & C2 & C3). destruct (N k _ _ C2) as [m2 Hm]. eauto.
    - intros j c' m' Hj. destruct (A5 j c' m' Hj) as (c2 & m2 & C1 & C2). destruct (N j _ _ C1) as [m3 Hm]. eauto.
    - intros it H1 H2. destruct (A6 it H1 H2) as (k & a & m' & C1 & C2 & C3 & C4 & C5). destruct (N k _ _ C3) as [m2 Hm]. exists k, a, m2. auto.
  Qed.
  Lemma K_bins done : forall bins, hoare (fun s => K done None s /\ dirs_of done s) (mark_bins d bins) (fun _ s => K done None s /\ dirs_of done s) (fun _ => True).
  Proof. induction bins as [|b t IH]; cbn [mark_bins]; [now apply hoare_ret|]. apply hoare_bind with (Q := fun _ s => K done None s /\ dirs_of done s); [apply K_chmod|]. intros _. exact IH. Qed.
  Lemma K_start : K [] None s1.
  Proof. constructor; auto; try contradiction; try discriminate. intros j c m H. exists c, m. auto. Qed.
  (** what a successful extraction from the tarball does *)
  Theorem cold_result untar sri x bytes : items (fst (untar bytes)) = all ->
    match extract_tarball xxh linkable reflinkable blob_mode untar manifest d sri true x bytes s1 with
    | (Ok k, s') =>
        k = match sri with Some i => i | None => xxh bytes end /\ snd (untar bytes) = true /\ Forall (fun e => e_data e <> None) (fst (untar bytes)) /\
        (forall it, In it all -> fst it = "package.json" -> manifest (i_data it) <> None) /\
        exists sk, K all None sk /\ dirs_of all sk /\
          s' = set_index (tarball_key k) (Some (Some (mkIdx (match mani_of manifest all with Some (b, _) => b | None => false end) (match mani_of manifest all with Some (_, b) => b | None => [] end) (map (idx_of xxh) all)))) sk
    | (Err _, _) => True
    | (Panic, _) => False
    end.
  Proof.
    intros Eall. unfold extract_tarball. destruct (untar bytes) as [es clean]. cbn [fst snd] in *.
    unfold bind at 1. change (mkdirp_op (map CNormal d) [] s1) with (mkdirp (map CNormal d) [] s1).
    pose proof (mkdirp_plain d [] s1 ltac:(intros k q [])) as MK. destruct (mkdirp (map CNormal d) [] s1) as [[created|er|] s2]; [|exact I|contradiction].
    destruct MK as (G & C1 & C2 & C3 & C4).
    assert (S2 : okB (mkLoop created x (mkIdx false [] []) None) [] s2).
    { split; [exact (K_grow [] None s1 s2 K_start G)|]. split; [exact C1|]. split.
      - intros q. rewrite C4. split; [tauto|]. intros [H|[H [H1|(it & [] & _)]]]; auto.
      - repeat split; cbn; auto. }
    unfold bind at 1. pose proof (hoare_entries_B es _ [] Eall s2 S2) as E. destruct (extract_entries _ _ _ _ _ d true es _ s2) as [[l|er|] s3]; [|exact I|contradiction].
    destruct E as [(HK & HC & HD & HX & HXb & HM & HXc & HP) HF]. destruct clean; cbn [negb]; [|exact I]. cbv zeta.
    unfold bind. pose proof (K_bins all (match l_mani l with Some (_, b) => b | None => [] end) s3 (conj HK HD)) as B.
    destruct (mark_bins d _ s3) as [[u|er|] s4]; [|exact I|contradiction]. destruct B as [HK4 HD4].
    split; [reflexivity|]. split; [reflexivity|]. split; [exact HF|]. split; [exact HP|]. exists s4. split; [exact HK4|]. split; [exact HD4|].
    rewrite HX, HXb, HXc, HM. cbn [app]. destruct (mani_of manifest all) as [[b bins]|]; reflexivity.
  Qed.

  (** ** modes, into a fresh destination *)
  Hypothesis Hfresh : forall it, In it all -> s_file s1 (tgt d it) = None.
  Definition emode (it : item) : nat := mode_of (i_mode it) blob_mode.
  Record M (f : item -> nat) (done : list item) (s : st) : Prop := mkM {
    mm_len : n1 <= List.length (s_inodes s);
    mm_file : forall q, ~ In q (map (tgt d) done) -> s_file s q = s_file s1 q;
    mm_done : forall it, In it done -> exists i, s_file s (tgt d it) = Some i /\ nth_error (s_inodes s) i = Some (i_data it, f it);
    mm_inj : forall a b i, In a done -> In b done -> s_file s (tgt d a) = Some i -> s_file s (tgt d b) = Some i -> a = b }.
  Lemma M_grow f done s s' : M f done s -> dirs_grow s s' -> M f done s'.
  Proof. intros [A B C D] [G1 G2 G3 G4 G5]. constructor; rewrite ?G1, ?G2; auto. Qed.
  Lemma M_entry e l done rest c : e_regular e = true -> e_data e = Some c ->
    let it := (strip_one (e_path e), (c, entry_mode e)) in
    done ++ it :: rest = all -> is_copy (l_mode l) = true \/ (forall a sc bins, In a all -> fst a = "package.json" -> manifest (i_data a) = Some (sc, bins) -> sc = false) ->
    hoare (M emode done) (extract_entry xxh linkable reflinkable blob_mode manifest d true e l) (fun l' s => M emode (done ++ [it]) s /\ l_mode l' = l_mode l) (fun _ => True).
  Proof.
    intros R Ec it Eall Hsc. unfold extract_entry. rewrite R, Ec. change (strip_one (e_path e)) with (fst it). change (entry_mode e) with (i_mode it). change c with (i_data it).
    clearbody it. clear R Ec c.
    assert (Hin : In it all) by (rewrite <- Eall; apply in_or_app; right; now left).
    assert (Hincl : incl (done ++ [it]) all) by (rewrite <- Eall; intros y Hy; apply in_app_or in Hy; apply in_or_app; destruct Hy as [Hy|[<-|[]]]; [now left|right; now left]).
    assert (Hit : In it (done ++ [it])) by (apply in_or_app; right; now left).
    assert (Tm : tame (fst it)) by (rewrite Forall_forall in Htame; now apply Htame).
    pose proof (nodup_new done it rest Eall) as Hn.
    assert (Hn2 : forall y, In y done -> tgt d y <> tgt d it).
    { intros y Hy Ey. unfold tgt in Ey. apply app_inv_head in Ey. apply Hn. rewrite <- Ey. apply in_map_iff. now exists y. }
    rewrite (at_dir_plain d _ Tm), sparent_plain, resolve_plain. fold (tgt d it). intros s HM.
    unfold bind at 1. change (mkdirp_op (map CNormal (removelast (tgt d it))) (l_created l) s) with (mkdirp (map CNormal (removelast (tgt d it))) (l_created l) s).
    destruct (mkdirp _ (l_created l) s) as [[created|er|] s2] eqn:MK; [|exact I|now apply mkdirp_no_panic in MK].
    assert (HM2 : M emode done s2).
    { assert (G : dirs_grow s s2); [|now apply (M_grow _ _ s)]. revert MK. generalize (map CNormal (removelast (tgt d it))). intros sp. unfold mkdirp. destruct (known _ _); [intros Ee; injection Ee as _ <-; apply dirs_grow_refl|].
      assert (CA : forall l k s s' r, create_all_from k l s = (r, s') -> dirs_grow s s').
      { clear. induction l as [|a l IH]; intros k s s' r; cbn; [intros Ee; injection Ee as _ <-; apply dirs_grow_refl|]. destruct (s_dir s _); [apply IH|]. destruct (exists_at s _); [intros Ee; injection Ee as _ <-; apply dirs_grow_refl|].
        intros Ee. apply dirs_grow_trans with (2 := IH _ _ _ _ Ee). apply set_dir_grow. }
      destruct (match sp with [] => true | _ => _ end).
      - unfold create_dir. destruct (negb _ && _); intros Ee; [injection Ee as _ <-; apply set_dir_grow|discriminate].
      - unfold create_dir_all. destruct (create_all_from [] sp s) as [[a|er|] s'] eqn:CE; intros Ee; [|discriminate|discriminate]. injection Ee as _ <-. now apply CA in CE. }
    clear HM MK s. destruct HM2 as [A1 A2 A3 A4].
    unfold bind at 1. unfold write_blob. cbn [new_inode].
    set (n := List.length (s_inodes s2)).
    set (s3 := set_blob (xxh (i_data it)) (Some n) (set_inodes (s_inodes s2 ++ [(i_data it, blob_mode)]) s2)).
    assert (F3 : s_file s3 (tgt d it) = None) by (cbn; rewrite A2; [now apply Hfresh|]; intros H; apply in_map_iff in H; destruct H as (y & Ey & Hy); now apply (Hn2 y)).
    unfold bind at 1. pose proof (efc_cases xxh linkable reflinkable (xxh (i_data it)) (tgt d it) (l_mode l) (i_mode it) s3) as EF.
    destruct (efc (xxh (i_data it)) (tgt d it) (l_mode l) (i_mode it) s3) as [[u|er|] s4]; [|exact I|contradiction].
    assert (HM4 : M emode (done ++ [it]) s4).
    { destruct EF as (i & c & m0 & B & _ & P). apply blob_spec in B. destruct B as (B1 & B2 & B3).
      assert (Ei : i = n) by (cbn in B1; unfold supd in B1; rewrite String.eqb_refl in B1; now injection B1). subst i.
      assert (Ecm : c = i_data it /\ m0 = blob_mode) by (cbn in B2; unfold n in B2; rewrite nth_snoc in B2; injection B2; auto). destruct Ecm as [-> ->].
      assert (Lt : forall y k v, In y done -> nth_error (s_inodes s2) k = Some v -> k < n) by (intros y k v _ Hk; apply nth_error_Some; rewrite Hk; discriminate).
      assert (Old : forall l2, (forall k v, nth_error (s_inodes s2) k = Some v -> nth_error l2 k = Some v) -> forall i0, n <= i0 -> nth_error l2 i0 = Some (i_data it, emode it) ->
          n1 <= List.length l2 -> M emode (done ++ [it]) (mkSt (s_dir s2) (upd (tgt d it) (Some i0) (s_file s2)) l2 (s_blob s3) (s_index s2))).
      { intros l2 H1 i0 H2 H3 H4. constructor; cbn.
        - exact H4.
        - intros q Hq. rewrite map_app, in_app_iff in Hq. rewrite upd_neq; [apply A2; tauto|]. intros ->. apply Hq. right. now left.
        - intros y Hy. apply in_app_or in Hy. destruct Hy as [Hy|[<-|[]]]; [|rewrite upd_eq; eauto]. rewrite upd_neq by now apply Hn2. destruct (A3 y Hy) as (k & C1 & C2). exists k. auto.
        - intros a b i1 Ha Hb. apply in_app_or in Ha. apply in_app_or in Hb. destruct Ha as [Ha|[<-|[]]], Hb as [Hb|[<-|[]]]; auto.
          + rewrite !upd_neq by now apply Hn2. now apply A4.
          + rewrite upd_eq, upd_neq by now apply Hn2. intros E1 E2. injection E2 as <-. destruct (A3 a Ha) as (k & C1 & C2). assert (k = i0) by congruence. subst k. apply (Lt a) in C2; [lia|exact Ha].
          + rewrite upd_eq, upd_neq by now apply Hn2. intros E2 E1. injection E2 as <-. destruct (A3 b Hb) as (k & C1 & C2). assert (k = i0) by congruence. subst k. apply (Lt b) in C2; [lia|exact Hb]. }
      assert (Ap : forall v k w, nth_error (s_inodes s2) k = Some w -> nth_error (s_inodes s2 ++ [v]) k = Some w).
      { intros v k w Hk. rewrite nth_error_app1; [exact Hk|]. apply nth_error_Some. rewrite Hk. discriminate. }
      destruct P as [(P1 & P2 & ->)|[(P1 & ->)|(j & P1 & _)]]; [| |congruence].
      - unfold set_inodes, set_file. cbn [s_dir s_file s_inodes s_blob s_index]. apply Old; [|exact (le_n n)| |].
        + intros k v Hk. destruct (Nat.eqb (i_mode it) m644); cbn; [now apply Ap|]. unfold n. rewrite lset_snoc. now apply Ap.
        + unfold emode, mode_of. destruct (Nat.eqb (i_mode it) m644); cbn; unfold n; [apply nth_snoc|rewrite lset_snoc; apply nth_snoc].
        + destruct (Nat.eqb (i_mode it) m644); cbn; rewrite ?lset_length, app_length; lia.
      - unfold set_inodes, set_file. cbn [s_dir s_file s_inodes s_blob s_index]. apply Old.
        + intros k v Hk. cbn. apply nth_error_app1_some. now apply Ap.
        + cbn. rewrite app_length. fold n. lia.
        + cbn. apply nth_snoc.
        + cbn. rewrite !app_length. fold n. lia. }
    clear EF. destruct (String.eqb_spec (fst it) "package.json") as [Ep|Ep]; [|cbn [ret]; auto].
    unfold bind at 1. unfold read_file. destruct (mm_done _ _ _ HM4 it Hit) as (i & Q1 & Q2). rewrite Q1, Q2.
    destruct (manifest (i_data it)) as [[sc bins]|] eqn:Mi; [|exact I]. destruct sc; [|cbn [ret]; auto].
    destruct Hsc as [Hsc|Hsc]; [rewrite Hsc; cbn [ret]; auto|]. specialize (Hsc it true bins Hin Ep Mi). discriminate.
  Qed.
  Lemma M_entries : forall es l done, done ++ items es = all ->
    is_copy (l_mode l) = true \/ (forall a sc bins, In a all -> fst a = "package.json" -> manifest (i_data a) = Some (sc, bins) -> sc = false) ->
    hoare (M emode done) (extract_entries xxh linkable reflinkable blob_mode manifest d true es l) (fun _ => M emode all) (fun _ => True).
  Proof.
    induction es as [|e es IH]; intros l done E Hsc; cbn [extract_entries].
    - cbn in E. rewrite app_nil_r in E. subst. apply hoare_ret. auto.
    - cbn [items flat_map] in E. destruct (e_regular e) eqn:R.
      + destruct (e_data e) as [c|] eqn:D.
        * apply hoare_bind with (Q := fun l' s => M emode (done ++ [(strip_one (e_path e), (c, entry_mode e))]) s /\ l_mode l' = l_mode l).
          -- exact (M_entry e l done (items es) c R D E Hsc).
          -- intros l' s [A B]. refine (IH l' _ _ _ s A); [rewrite <- app_assoc; exact E|rewrite B; exact Hsc].
        * intros s Hs. unfold bind, extract_entry. rewrite R, D. unfold bind. change (mkdirp_op ?a ?b s) with (mkdirp a b s).
          destruct (mkdirp _ (l_created l) s) as [[cr|er|] s2] eqn:MK; [exact I|exact I|]. now apply mkdirp_no_panic in MK.
      + intros s Hs. unfold bind, extract_entry. rewrite R. destruct (e_data e) as [c|] eqn:D; [|exact I]. cbn [ret]. exact (IH l done E Hsc s Hs).
  Qed.
  Hypothesis HfreshD : forall q, prefix d q -> s_file s1 q = None.
  Definition named (b : string) (it : item) : bool := if path_eq_dec (names b) (names (fst it)) then true else false.
  Lemma M_chmod f b : tame b -> hoare (M f all) (chmod (fun m => Nat.lor m m111) (resolve (at_dir d b))) (fun _ => M (fun it => if named b it then Nat.lor (f it) m111 else f it) all) (fun _ => True).
  Proof.
    intros Tb s [A1 A2 A3 A4]. rewrite (at_dir_plain d b Tb), resolve_plain. unfold chmod. destruct (s_file s (d ++ names b)) as [i|] eqn:F.
    - destruct (in_dec path_eq_dec (d ++ names b) (map (tgt d) all)) as [Hi|Hi]; [|rewrite A2, HfreshD in F by (auto using prefix_app); discriminate].
      apply in_map_iff in Hi. destruct Hi as (it & Et & Hit). destruct (A3 it Hit) as (i' & C1 & C2). rewrite Et, F in C1. injection C1 as <-. rewrite C2.
      assert (Ln : i < List.length (s_inodes s)) by (apply nth_error_Some; rewrite C2; discriminate).
      assert (Nb : forall a, In a all -> named b a = true -> a = it).
      { intros a Ha. unfold named. destruct (path_eq_dec (names b) (names (fst a))) as [E|E]; [|discriminate]. intros _. apply tgt_inj; auto. unfold tgt in *. congruence. }
      assert (Nbi : named b it = true) by (unfold named; unfold tgt in Et; apply app_inv_head in Et; destruct (path_eq_dec (names b) (names (fst it))); congruence).
      constructor; cbn; [now rewrite lset_length|exact A2| |exact A4].
      intros a Ha. destruct (named b a) eqn:Na.
      + rewrite (Nb a Ha Na). exists i. rewrite Et. split; [exact F|now rewrite nth_lset_eq].
      + destruct (A3 a Ha) as (k & D1 & D2). exists k. split; [exact D1|]. rewrite nth_lset_neq; [exact D2|]. intros <-. assert (a = it) by (apply (A4 a it i); auto; congruence). congruence.
    - destruct (s_dir s (d ++ names b)) eqn:Dd; [|exact I]. constructor; auto. intros a Ha. destruct (A3 a Ha) as (k & D1 & D2).
      assert (Na : named b a = false); [|rewrite Na; eauto]. unfold named. destruct (path_eq_dec (names b) (names (fst a))) as [E|E]; [|reflexivity]. exfalso. unfold tgt in D1. rewrite <- E in D1. congruence.
  Qed.
  Definition marked (bins : list string) (it : item) : bool := existsb (fun b => named b it) bins.
  Lemma lor_idem m : Nat.lor (Nat.lor m m111) m111 = Nat.lor m m111.
  Proof. rewrite <- Nat.lor_assoc. now rewrite Nat.lor_diag. Qed.
  Lemma M_bins : forall bins f, Forall tame bins ->
    hoare (M f all) (mark_bins d bins) (fun _ => M (fun it => if marked bins it then Nat.lor (f it) m111 else f it) all) (fun _ => True).
  Proof.
    induction bins as [|b t IH]; intros f F; cbn [mark_bins]; [apply hoare_ret; auto|]. inversion F as [|? ? F1 F2]; subst.
    apply hoare_bind with (1 := M_chmod f b F1). intros _. apply hoare_weaken with (1 := IH (fun it => if named b it then Nat.lor (f it) m111 else f it) F2); auto. intros _ s [A1 A2 A3 A4]. constructor; auto.
    intros it Hit. destruct (A3 it Hit) as (i & C1 & C2). exists i. split; [exact C1|]. rewrite C2. unfold marked. cbn [existsb]. fold (marked t it). destruct (named b it), (marked t it); cbn [orb]; rewrite ?lor_idem; reflexivity.
  Qed.
  Theorem cold_modes untar sri x bytes : items (fst (untar bytes)) = all ->
    is_copy x = true \/ (forall a sc bins, In a all -> fst a = "package.json" -> manifest (i_data a) = Some (sc, bins) -> sc = false) ->
    Forall tame (match mani_of manifest all with Some (_, b) => b | None => [] end) ->
    match extract_tarball xxh linkable reflinkable blob_mode untar manifest d sri true x bytes s1 with
    | (Ok k, s') => M (fun it => if marked (match mani_of manifest all with Some (_, b) => b | None => [] end) it then Nat.lor (emode it) m111 else emode it) all s'
    | (Err _, _) => True
    | (Panic, _) => False
    end.
  Proof.
    intros Eall Hsc Tb. unfold extract_tarball. destruct (untar bytes) as [es clean]. cbn [fst snd] in *.
    unfold bind at 1. change (mkdirp_op (map CNormal d) [] s1) with (mkdirp (map CNormal d) [] s1).
    pose proof (mkdirp_plain d [] s1 ltac:(intros k q [])) as MK. destruct (mkdirp (map CNormal d) [] s1) as [[created|er|] s2]; [|exact I|contradiction].
    destruct MK as (G & C1 & C2 & C3 & C4).
    assert (S2 : okB (mkLoop created x (mkIdx false [] []) None) [] s2).
    { split; [exact (K_grow [] None s1 s2 K_start G)|]. split; [exact C1|]. split.
      - intros q. rewrite C4. split; [tauto|]. intros [H|[H [H1|(it & [] & _)]]]; auto.
      - repeat split; cbn; auto. }
    assert (M2 : M emode [] s2).
    { apply (M_grow _ _ s1); [|exact G]. constructor; auto; try contradiction. }
    unfold bind at 1. pose proof (hoare_entries_B es _ [] Eall s2 S2) as E. pose proof (M_entries es (mkLoop created x (mkIdx false [] []) None) [] Eall Hsc s2 M2) as EM.
    destruct (extract_entries _ _ _ _ _ d true es _ s2) as [[l|er|] s3]; [|exact I|contradiction].
    destruct E as [(HK & HC & HD & HX & HXb & HM & HXc & HP) HF]. destruct clean; cbn [negb]; [|exact I]. cbv zeta.
    unfold bind. rewrite HM. pose proof (M_bins _ emode Tb s3 EM) as B.
    destruct (mark_bins d _ s3) as [[u|er|] s4]; [|exact I|contradiction]. destruct B as [B1 B2 B3 B4]. constructor; auto.
  Qed.
End Cold.
