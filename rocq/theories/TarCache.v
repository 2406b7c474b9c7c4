(** * Extraction with the cache in any state: proofs *)
From Verif Require Import Base Types StdPath Fs TarModel TarStream TarProofs TarContents TarWarm TarPlain TarTotal TarConfine TarSpec TarThms.
From Coq Require Import Permutation.
Open Scope string_scope.
Open Scope list_scope.

Lemma clean_blobs_same files : forall s, fst (clean_blobs files s) = Ok tt /\ s_file (snd (clean_blobs files s)) = s_file s /\ s_inodes (snd (clean_blobs files s)) = s_inodes s /\ s_dir (snd (clean_blobs files s)) = s_dir s /\ s_index (snd (clean_blobs files s)) = s_index s.
Proof.
  induction files as [|[e [h m]] t IH]; intros s; cbn [clean_blobs]; [repeat split|]. destruct (IH (set_blob h None s)) as (A & B & C & D & E). rewrite A, B, C, D, E. repeat split.
Qed.

Lemma trim_left_head l x t : trim_left l = x :: t -> is_dot x = false.
Proof. induction l as [|y l IH]; [discriminate|]. cbn. destruct (is_dot y) eqn:E; [exact IH|]. intros H. injection H as -> ->. exact E. Qed.
Lemma trim_left_app l x : is_dot x = false -> trim_left (l ++ [x]) = trim_left l ++ [x].
Proof. intros E. induction l as [|y l IH]; cbn [trim_left app]; [now rewrite E|]. destruct (is_dot y); [exact IH|reflexivity]. Qed.
Lemma filter_one_trim l x : filter keep l = [x] -> trim l = [x].
Proof.
  intros H. rewrite <- trim_filter in H. unfold trim in *.
  destruct (trim_left (rev (trim_left l))) as [|z t] eqn:E; [discriminate|]. pose proof (trim_left_head _ _ _ E) as Ez. cbn [rev] in *.
  rewrite filter_app in H. cbn [filter] in H. unfold keep at 2 in H. unfold is_dot in Ez. rewrite Ez in H. cbn [negb] in H. apply (app_inj_tail _ []) in H. destruct H as [H ->].
  destruct (trim_left l) as [|y l'] eqn:El; [discriminate|]. pose proof (trim_left_head _ _ _ El) as Ey.
  cbn [rev] in E. destruct (rev l') as [|w r] eqn:Er.
  - cbn in E. rewrite Ey in E. injection E as _ <-. reflexivity.
  - destruct (trim_left (w :: r)) as [|w' r'] eqn:Ew.
    + rewrite trim_left_app, Ew in E by exact Ey. cbn in E. injection E as <- <-. reflexivity.
    + rewrite trim_left_app, Ew in E by exact Ey. cbn in E. injection E as <- <-. exfalso. rewrite rev_app_distr in H. cbn [rev app filter] in H. unfold keep at 1 in H. unfold is_dot in Ey. rewrite Ey in H. discriminate.
Qed.
Lemma strip_package p : inside p -> (strip_one p = "package.json" <-> inner_path p = ["package.json"]).
Proof.
  intros H. split; intros E.
  - rewrite <- names_strip by exact H. rewrite E. reflexivity.
  - unfold strip_one. unfold inner_path in E. change (fun x : string => negb (String.eqb x "" || String.eqb x ".")) with keep in E. now rewrite (filter_one_trim _ _ E).
Qed.
Lemma mani_manifest manifest es : proper es -> mani_of manifest (items es) = manifest_of manifest es.
Proof.
  intros P. unfold mani_of, manifest_of. match goal with |- context [find ?f (items es)] => destruct (find f (items es)) as [it|] eqn:F end.
  - apply find_some in F. destruct F as [F1 F2]. apply String.eqb_eq in F2.
    assert (Nm : names (fst it) = ["package.json"]) by (rewrite F2; reflexivity). rewrite <- Nm, (file_of_item es it P F1). unfold i_data. destruct (snd it) as [c0 m0]. reflexivity.
  - rewrite file_of_none; [reflexivity|exact P|]. intros it Hi E. pose proof (List.find_none _ _ F it Hi) as N. cbn in N. apply String.eqb_neq in N. apply N.
    unfold items in Hi. apply in_flat_map in Hi. destruct Hi as (e & He & Hi). destruct (e_regular e) eqn:R; [|contradiction]. destruct (e_data e) as [c|]; [|contradiction]. destruct Hi as [<-|[]]. change (names (strip_one (e_path e)) = ["package.json"]) in E. change (strip_one (e_path e) = "package.json").
    destruct P as [P _]. rewrite Forall_forall in P. specialize (P e He R). rewrite names_strip in E by exact P. now apply strip_package.
Qed.

Section Cache.
  Variable check : string -> string -> bool.
  Variable limit : nat.
  Variable xxh : string -> string.
  Variables linkable reflinkable : bool.
  Variable blob_mode : nat.
  Variable untar : string -> list entry * bool.
  Variable manifest : string -> option (bool * list string).
  Notation tarball := (extract_tarball xxh linkable reflinkable blob_mode untar manifest).
  Notation stream := (extract_stream check limit xxh linkable reflinkable blob_mode untar manifest).
  Notation whole := (extract_to_dir check limit xxh linkable reflinkable blob_mode untar manifest).
  Notation index_of := (index_of xxh manifest).
  Notation cache_clear := (cache_clear xxh).
  Notation entries := (entries untar).
  Lemma index_bins es : proper es -> x_bins (index_of es) = bins_of manifest es /\ x_copy (index_of es) = scripts_of manifest es.
  Proof. intros P. cbn. rewrite (mani_manifest manifest es P). split; reflexivity. Qed.

  (** ** streams *)
  Lemma stream_unfold d sri cached x ev s : stream d sri cached x ev s =
    match received ev with
    | None => (Err EIo, s)
    | Some r => if match sri with Some i => check i r | None => true end then tarball d sri cached x r s else (Err EIntegrity, s)
    end.
  Proof.
    unfold extract_stream. rewrite into_temp_ok. destruct (received ev) as [r|]; [|reflexivity].
    replace (verdict_of check match sri with Some i => Some (i, "") | None => None end r) with (match sri with Some i => check i r | None => true end) by (destruct sri; reflexivity).
    destruct (match sri with Some i => check i r | None => true end); [|reflexivity]. destruct (limit <? String.length r)%nat; reflexivity.
  Qed.

  (** ** after an attempt to extract from the cache failed *)
  Section Left.
    Variables (d : path) (x : xmode) (es : list entry) (l : list (string * (string * nat))) (s sL : st).
    Hypothesis P : proper es.
    Hypothesis C : cache_clear es s.
    Hypothesis V : vacant d s.
    Hypothesis W : well_formed s.
    Hypothesis Pm : Permutation (x_files (index_of es)) l.
    Hypothesis L : left_over xxh d s (x_bins (index_of es)) (warm_mode (index_of es) x) l sL.
    Variable sC : st.
    Hypothesis Ef : s_file sC = s_file sL.
    Hypothesis Ei : s_inodes sC = s_inodes sL.
    Hypothesis Ed : s_dir sC = s_dir sL.
    Lemma left_file it i : In it (items es) -> s_file sC (tgt d it) = Some i -> exists m, nth_error (s_inodes sC) i = Some (i_data it, m).
    Proof.
      intros Hi F. rewrite Ef in F. rewrite Ei. destruct (perm_files xxh manifest es l Pm P) as (T & D & Lf). destruct L as (done & Hd & HK & _).
      destruct (in_dec path_eq_dec (tgt d it) (map (tgt d) done)) as [H|H].
      - apply in_map_iff in H. destruct H as (f & E & Hf). pose proof (Hd f Hf) as Hf'. apply Lf in Hf'. destruct Hf' as (it' & Hi' & ->).
        assert (it' = it).
        { destruct (proper_items _ P) as [_ Dn]. change (tgt d (idx_of xxh it')) with (tgt d it') in E. apply (tgt_inj d (items es) Dn it' it Hi' Hi E). }
        subst it'. destruct (w_done _ _ _ _ _ _ _ HK _ Hf) as (i' & c & m & i0 & m0 & C1 & C2 & C3 & _). change (tgt d (idx_of xxh it)) with (tgt d it) in C1. assert (i' = i) by congruence. subst i'.
        exists m. rewrite C2. do 2 f_equal. apply blob_spec in C3. destruct C3 as (B1 & B2 & B3). apply C; [apply in_or_app; right|apply in_or_app; left; apply item_content; [apply P|exact Hi]|exact B3].
        apply in_map_iff. exists (c, m0). split; [reflexivity|]. now apply nth_error_In in B2.
      - rewrite (w_file _ _ _ _ _ _ _ HK _ H) in F. rewrite (proj1 (V (tgt d it) (prefix_app _ _))) in F. discriminate.
    Qed.
    Lemma left_wf it i : In it (items es) -> s_file sC (tgt d it) = Some i -> i < List.length (s_inodes sC).
    Proof. intros Hi F. destruct (left_file it i Hi F) as [m Hm]. apply nth_error_Some. rewrite Hm. discriminate. Qed.
    Lemma left_share a b i : In a (items es) -> In b (items es) -> s_file sC (tgt d a) = Some i -> s_file sC (tgt d b) = Some i -> i_data a = i_data b.
    Proof. intros Ha Hb Fa Fb. destruct (left_file a i Ha Fa) as [m Hm]. destruct (left_file b i Hb Fb) as [m' Hm']. congruence. Qed.
    Lemma left_out q : ~ In q (map (tgt d) (items es)) -> s_file sC q = s_file s q.
    Proof.
      intros H. rewrite Ef. destruct L as (done & Hd & HK & _). apply (w_file _ _ _ _ _ _ _ HK). intros H2. apply H. apply in_map_iff in H2. destruct H2 as (f & <- & Hf).
      destruct (perm_files xxh manifest es l Pm P) as (_ & _ & Lf). apply Hd, Lf in Hf. destruct Hf as (it & Hi & ->). apply in_map_iff. exists it. split; [reflexivity|exact Hi].
    Qed.
    Lemma clear_hash : forall a b, In a (items es) -> In b (items es) -> xxh (i_data a) = xxh (i_data b) -> i_data a = i_data b.
    Proof. intros a b Ha Hb. apply C; apply in_or_app; left; apply item_content; auto; apply P. Qed.
    Lemma left_contents sri bytes k s' : entries bytes = es -> tarball d sri true x bytes sC = (Ok k, s') -> holds_package d es s'.
    Proof.
      intros Ees E. destruct (proper_items _ P) as [T D].
      pose proof (cold_result xxh linkable reflinkable blob_mode manifest d sC (items es) T D clear_hash left_wf left_share untar sri x bytes (f_equal items Ees)) as R.
      rewrite E in R. destruct R as (_ & _ & _ & _ & sk & HK & HD & ->).
      apply (exact_contents d es s); [exact P|exact V| |].
      - intros q Hq. change (s_file sk q = s_file s q). rewrite (k_file _ _ _ _ _ _ _ HK q Hq). now apply left_out.
      - intros it Hi. destruct (k_done _ _ _ _ _ _ _ HK it Hi ltac:(discriminate)) as (i & m & C1 & C2 & _). eauto.
    Qed.
    Lemma left_total sri bytes : d <> [] -> (forall q, q <> [] -> prefix q d -> s_file s q = None) -> (forall f, In f (package_files es) -> List.length (fst f) = 1) ->
      entries bytes = es -> snd (untar bytes) = true -> Forall (fun e => e_data e <> None) es ->
      (manifest_of manifest es = None -> file_of es ["package.json"] = None) ->
      Forall (fun b => tame b /\ exists f, In f (package_files es) /\ names b = fst f) (bins_of manifest es) ->
      exists k s', tarball d sri true x bytes sC = (Ok k, s').
    Proof.
      intros Nd Nf Flat Ees Ecl Edata Em Eb. destruct (proper_items _ P) as [T D].
      assert (Fl : forall it, In it (items es) -> List.length (names (fst it)) = 1) by (intros it Hi; apply (Flat (names (fst it), snd it)); apply in_files; [apply P|eauto]).
      assert (Rl : forall it, In it (items es) -> removelast (tgt d it) = d).
      { intros it Hi. unfold tgt. pose proof (Fl it Hi) as F. destruct (names (fst it)) as [|y [|z t]]; try discriminate F. rewrite removelast_app by discriminate. cbn. apply app_nil_r. }
      assert (Hpre : forall a b, In a (items es) -> In b (items es) -> prefix (names (fst a)) (names (fst b)) -> a = b).
      { intros a b Ha Hb [t E]. apply (tgt_inj d (items es) D a b Ha Hb). unfold tgt. f_equal. pose proof (Fl a Ha) as Fa. pose proof (Fl b Hb) as Fb. rewrite E, app_length in Fb. destruct t; [now rewrite app_nil_r in E|cbn in Fb; lia]. }
      apply (cold_total xxh linkable reflinkable blob_mode manifest d sC (items es) Nd T D clear_hash left_wf left_share).
      - intros it Hi E. pose proof (Fl it Hi) as F. rewrite E in F. discriminate.
      - exact Hpre.
      - intros q Hq Pq. rewrite Ed in Hq. destruct L as (done & Hd & HK & HL). apply HL in Hq. destruct Hq as [Hq|(_ & f & Hf & Hq)]; [now apply (V q Pq)|].
        destruct (perm_files xxh manifest es l Pm P) as (_ & _ & Lf). apply Lf in Hf. destruct Hf as (it & Hi & ->). change (tgt d (idx_of xxh it)) with (tgt d it) in Hq. rewrite (Rl it Hi) in Hq. now apply prefix_antisym.
      - intros q Nq Pq. rewrite left_out; [now apply Nf|]. intros H. apply in_map_iff in H. destruct H as (it & <- & Hi). apply prefix_len in Pq. unfold tgt in Pq. rewrite app_length, (Fl it Hi) in Pq. lia.
      - intros q i Pq F. destruct (in_dec path_eq_dec q (map (tgt d) (items es))) as [H|H].
        + apply in_map_iff in H. destruct H as (it & <- & Hi). eauto.
        + rewrite left_out in F by exact H. rewrite (proj1 (V q Pq)) in F. discriminate.
      - exact (f_equal items Ees).
      - exact Ecl.
      - rewrite <- Ees in Edata. exact Edata.
      - intros it Hi Ep E. assert (Nm : names (fst it) = ["package.json"]) by (rewrite Ep; reflexivity).
        pose proof (file_of_item es it P Hi) as F. rewrite Nm in F. unfold manifest_of in Em. rewrite F in Em. unfold i_data in E. destruct (snd it) as [c m]. cbn in E. now apply Em in E.
      - rewrite (mani_manifest manifest es P). fold (bins_of manifest es). eapply Forall_impl; [|exact Eb]. intros b [B1 (f & Hf & B2)]. split; [exact B1|]. apply in_files in Hf; [|apply P]. destruct Hf as (it & Hi & ->). exists it. auto.
    Qed.
  End Left.

  (** ** any state of the cache *)
  Theorem whole_contents fetch order d k cached x bytes s k' s' :
    proper (entries bytes) -> cache_clear (entries bytes) s -> vacant d s -> well_formed s ->
    (forall ev b, fetch = Some ev -> received ev = Some b -> check k b = true -> b = bytes) ->
    (s_index s (tarball_key k) = None \/ s_index s (tarball_key k) = Some None \/ s_index s (tarball_key k) = Some (Some (index_of (entries bytes)))) ->
    (forall idx, Permutation (x_files idx) (order idx)) ->
    whole fetch order d (Some k) cached x s = (Ok k', s') -> k' = k /\ holds_package d (entries bytes) s'.
  Proof.
    intros P C V W Hc Hi Ho E.
    assert (Kq : forall ca s1 k1 s2, tarball d (Some k) ca x bytes s1 = (Ok k1, s2) -> k1 = k).
    { intros ca s1 k1 s2. unfold extract_tarball. destruct (untar bytes) as [es cl]. unfold bind at 1. destruct (mkdirp_op _ _ s1) as [[cr|er|] sa]; try discriminate.
      unfold bind at 1. destruct (extract_entries _ _ _ _ _ _ _ _ _ sa) as [[lo|er|] sb]; try discriminate. destruct (negb cl); [discriminate|]. cbv zeta. unfold bind. destruct (mark_bins _ _ sb) as [[u|er|] sc]; try discriminate.
      destruct ca; cbn; intros H; injection H as <- _; reflexivity. }
    assert (FE : forall ca s1, fetch_extract check limit xxh linkable reflinkable blob_mode untar manifest fetch d (Some k) ca x s1 = (Ok k', s') -> tarball d (Some k) ca x bytes s1 = (Ok k', s')).
    { intros ca s1. unfold fetch_extract. destruct fetch as [ev|]; [|discriminate]. rewrite stream_unfold. destruct (received ev) as [r|] eqn:Rv; [|discriminate]. destruct (check k r) eqn:Ck; [|discriminate]. apply (Hc ev r eq_refl Rv) in Ck. subst r. auto. }
    assert (N : no_collision xxh (contents_of (entries bytes))) by (intros a b Ha Hb; apply C; apply in_or_app; now left).
    unfold extract_to_dir in E. destruct cached; [|apply FE in E; split; [now apply Kq in E|]; now apply (plain_contents xxh linkable reflinkable blob_mode untar manifest d (Some k) x bytes s k' s' P V)].
    destruct Hi as [Hi|[Hi|Hi]]; rewrite Hi in E.
    - apply FE in E. split; [now apply Kq in E|]. now apply (cold_contents xxh linkable reflinkable blob_mode untar manifest d (Some k) x bytes s k' s' P N V).
    - discriminate.
    - set (idx := index_of (entries bytes)) in *. destruct (warm xxh linkable reflinkable d idx (order idx) x s) as [[u|er|] s1] eqn:Wm; [|
        |discriminate].
      + injection E as <- <-. split; [reflexivity|]. now apply (warm_contents xxh linkable reflinkable manifest d (order idx) x (entries bytes) s s1 u P C V W (Ho idx)).
      + unfold bind in E. unfold clean_from_cache in E. unfold bind in E. destruct (clean_blobs_same (x_files idx) s1) as (A1 & A2 & A3 & A4 & A5).
        destruct (clean_blobs (x_files idx) s1) as [r sc]. cbn [fst snd] in *. subst r. apply FE in E. split; [now apply Kq in E|].
        destruct (perm_files xxh manifest (entries bytes) (order idx) (Ho idx) P) as (T & D & Lf).
        pose proof (warm_result xxh linkable reflinkable d s idx (order idx) x T D ltac:(intros it _; apply (V _ (prefix_app _ _))) (proj2 W)) as R. rewrite Wm in R.
        apply (left_contents d x (entries bytes) (order idx) s s1 P C V (Ho idx) R (set_index (tarball_key k) None sc) A2 A3 (Some k) bytes k' s' eq_refl E).
  Qed.
  (** flat packages: when the cache fails, the network does not *)
  Theorem whole_flat fetch ev order d k x bytes s :
    proper (entries bytes) -> cache_clear (entries bytes) s -> vacant d s -> well_formed s -> d <> [] -> (forall q, q <> [] -> prefix q d -> s_file s q = None) ->
    (forall f, In f (package_files (entries bytes)) -> List.length (fst f) = 1) ->
    (forall idx, Permutation (x_files idx) (order idx)) -> s_index s (tarball_key k) = Some (Some (index_of (entries bytes))) ->
    fetch = Some ev -> received ev = Some bytes -> check k bytes = true ->
    snd (untar bytes) = true -> Forall (fun e => e_data e <> None) (entries bytes) ->
    (manifest_of manifest (entries bytes) = None -> file_of (entries bytes) ["package.json"] = None) ->
    Forall (fun b => tame b /\ exists f, In f (package_files (entries bytes)) /\ names b = fst f) (bins_of manifest (entries bytes)) ->
    exists s', whole fetch order d (Some k) true x s = (Ok k, s') /\ holds_package d (entries bytes) s'.
  Proof.
    intros P C V W Nd Nf Flat Ho Hi -> Er Ck Ecl Edata Em Eb. unfold extract_to_dir. rewrite Hi.
    destruct (perm_files xxh manifest (entries bytes) (order (index_of (entries bytes))) (Ho _) P) as (T & D & Lf). set (idx := index_of (entries bytes)) in *.
    pose proof (warm_result xxh linkable reflinkable d s idx (order idx) x T D ltac:(intros it _; apply (V _ (prefix_app _ _))) (proj2 W)) as R.
    destruct (warm xxh linkable reflinkable d idx (order idx) x s) as [[u|er|] s1] eqn:Wm; [| |contradiction].
    - exists s1. split; [reflexivity|]. now apply (warm_contents xxh linkable reflinkable manifest d (order idx) x (entries bytes) s s1 u P C V W (Ho idx)).
    - unfold bind, clean_from_cache, bind. destruct (clean_blobs_same (x_files idx) s1) as (A1 & A2 & A3 & A4 & A5). destruct (clean_blobs (x_files idx) s1) as [r sc]. cbn [fst snd] in *. subst r.
      unfold fetch_extract. rewrite stream_unfold, Er, Ck.
      destruct (left_total d x (entries bytes) (order idx) s s1 P C V (Ho idx) R (set_index (tarball_key k) None sc) A2 A3 A4 (Some k) bytes Nd Nf Flat eq_refl Ecl Edata Em Eb) as (k1 & s' & E).
      rewrite E. exists s'. pose proof (left_contents d x (entries bytes) (order idx) s s1 P C V (Ho idx) R (set_index (tarball_key k) None sc) A2 A3 (Some k) bytes k1 s' eq_refl E) as H.
      destruct (proper_items _ P) as [T' D'].
      pose proof (cold_result xxh linkable reflinkable blob_mode manifest d (set_index (tarball_key k) None sc) (items (entries bytes)) T' D' (clear_hash (entries bytes) s P C) (left_wf d x (entries bytes) (order idx) s s1 P C V (Ho idx) R _ A2 A3)
        (left_share d x (entries bytes) (order idx) s s1 P C V (Ho idx) R _ A2 A3) untar (Some k) x bytes eq_refl) as Rc. rewrite E in Rc. destruct Rc as (-> & _). auto.
  Qed.
  (** a fresh place, nothing cached: an intact archive is always extracted *)
  Theorem fresh_total ev order d sri cached x bytes s : cached = true ->
    proper (entries bytes) -> no_collision xxh (contents_of (entries bytes)) -> vacant d s -> d <> [] -> (forall q, q <> [] -> prefix q d -> s_file s q = None) ->
    named_entries (entries bytes) -> (forall f g, In f (package_files (entries bytes)) -> In g (package_files (entries bytes)) -> prefix (fst f) (fst g) -> fst f = fst g) ->
    (forall k, sri = Some k -> s_index s (tarball_key k) = None) ->
    received ev = Some bytes -> (forall k, sri = Some k -> check k bytes = true) ->
    snd (untar bytes) = true -> Forall (fun e => e_data e <> None) (entries bytes) ->
    (manifest_of manifest (entries bytes) = None -> file_of (entries bytes) ["package.json"] = None) ->
    Forall (fun b => tame b /\ exists f, In f (package_files (entries bytes)) /\ names b = fst f) (bins_of manifest (entries bytes)) ->
    exists k s', whole (Some ev) order d sri cached x s = (Ok k, s').
  Proof.
    intros -> P N V Nd Nf Nm Pf Hi Er Ck Ecl Edata Em Eb. set (es := entries bytes) in *.
    assert (E : exists k s', tarball d sri true x bytes s = (Ok k, s')).
    { destruct (proper_items _ P) as [T D].
      apply (cold_total xxh linkable reflinkable blob_mode manifest d s (items es) Nd T D (hash_items xxh _ (proj1 P) N)
        (fun it i H1 H2 => match vacant_tgt d s _ V it i H1 H2 with end) (fun a b i H1 H2 H3 H4 => match vacant_tgt d s _ V a i H1 H3 with end)).
      - now apply named_items.
      - intros a b Ha Hb Pr. apply (tgt_inj d (items es) D a b Ha Hb). unfold tgt. f_equal. apply (Pf (names (fst a), snd a) (names (fst b), snd b)); [apply in_files; [apply P|eauto]|apply in_files; [apply P|eauto]|exact Pr].
      - intros q Hq Pq. now apply (V q Pq).
      - exact Nf.
      - intros q i Pq F. rewrite (proj1 (V q Pq)) in F. discriminate.
      - reflexivity.
      - exact Ecl.
      - exact Edata.
      - intros it Hit Ep E. assert (Nm' : names (fst it) = ["package.json"]) by (rewrite Ep; reflexivity).
        pose proof (file_of_item es it P Hit) as F. rewrite Nm' in F. unfold manifest_of in Em. rewrite F in Em. unfold i_data in E. destruct (snd it) as [c m]. cbn in E. now apply Em in E.
      - rewrite (mani_manifest manifest es P). fold (bins_of manifest es). eapply Forall_impl; [|exact Eb]. intros b [B1 (f & Hf & B2)]. split; [exact B1|]. apply in_files in Hf; [|apply P]. destruct Hf as (it & Hit & ->). exists it. auto. }
    destruct E as (k & s' & E). exists k, s'. unfold extract_to_dir. destruct sri as [k0|].
    - rewrite (Hi k0 eq_refl). unfold fetch_extract. now rewrite stream_unfold, Er, (Ck k0 eq_refl).
    - unfold fetch_extract. now rewrite stream_unfold, Er.
  Qed.
End Cache.
