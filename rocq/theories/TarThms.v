(** * Extraction: from the invariants to the specification *)
From Verif Require Import Base Types StdPath Fs TarModel TarStream TarProofs TarContents TarWarm TarPlain TarTotal TarConfine TarSpec.
From Coq Require Import Permutation.
Open Scope string_scope.
Open Scope list_scope.

(** ** paths of entries *)
Definition to_comp (x : string) : comp := if String.eqb x ".." then CParent else CNormal x.
Definition keep (x : string) : bool := negb (String.eqb x "" || String.eqb x ".").
Lemma segs_filter l : flat_map seg_comp l = map to_comp (filter keep l).
Proof.
  induction l as [|x l IH]; [reflexivity|]. cbn [flat_map filter]. rewrite IH. unfold seg_comp, keep, to_comp.
  destruct (String.eqb x ""); [reflexivity|]. destruct (String.eqb x "."); [reflexivity|]. cbn. now destruct (String.eqb x "..").
Qed.
Lemma trim_left_filter l : filter keep (trim_left l) = filter keep l.
Proof. induction l as [|x l IH]; [reflexivity|]. cbn [trim_left]. unfold is_dot. destruct (String.eqb x "" || String.eqb x ".") eqn:E; [|reflexivity]. cbn [filter]. unfold keep at 2. rewrite E. exact IH. Qed.
Lemma filter_rev A (f : A -> bool) l : filter f (rev l) = rev (filter f l).
Proof.
  induction l as [|x l IH]; [reflexivity|]. cbn [rev filter]. rewrite filter_app, IH. cbn. destruct (f x); [reflexivity|now rewrite app_nil_r].
Qed.
Lemma trim_filter l : filter keep (trim l) = filter keep l.
Proof. unfold trim. rewrite filter_rev, trim_left_filter, <- filter_rev, rev_involutive. apply trim_left_filter. Qed.
Lemma trim_left_incl l : incl (trim_left l) l.
Proof. induction l as [|x l IH]; [apply incl_refl|]. cbn. destruct (is_dot x); [now apply incl_tl|apply incl_refl]. Qed.
Lemma trim_incl l : incl (trim l) l.
Proof. unfold trim. intros x H. apply in_rev in H. apply trim_left_incl in H. apply in_rev in H. now apply trim_left_incl in H. Qed.
Lemma split_join l : l <> [] -> Forall (fun x => no_char "/" x = true) l -> StdPath.split "/" (join_slash l) = l.
Proof.
  induction l as [|x l IH]; intros N F; [contradiction|]. inversion F as [|? ? F1 F2]; subst. destruct l as [|y l].
  - cbn [join_slash]. now apply split_whole.
  - change (join_slash (x :: y :: l)) with (x ++ String "/" (join_slash (y :: l)))%string. rewrite split_cons by exact F1. now rewrite IH.
Qed.
Lemma body_strip p : body (strip_one p) = map to_comp (inner_path p).
Proof.
  unfold body, strip_one, inner_path. fold keep. set (l := tl (StdPath.split "/" p)).
  assert (F : Forall (fun x => no_char "/" x = true) (trim l)).
  { rewrite Forall_forall. intros x H. apply trim_incl in H. apply (split_pieces "/" p). unfold l in H. destruct (StdPath.split "/" p); [contradiction|now right]. }
  change (fun x : string => negb (String.eqb x "" || String.eqb x ".")) with keep. rewrite <- (trim_filter l). destruct (trim l) as [|y t] eqn:E; [reflexivity|]. rewrite split_join by (try discriminate; exact F). apply segs_filter.
Qed.
Lemma tame_strip p : tame (strip_one p) <-> inside p.
Proof.
  unfold tame, inside. rewrite body_strip. rewrite in_map_iff. split; intros H K; apply H.
  - exists "..". split; [reflexivity|exact K].
  - destruct K as (x & E & K). unfold to_comp in E. destruct (String.eqb_spec x ".."); [now subst|discriminate].
Qed.
Lemma names_strip p : inside p -> names (strip_one p) = inner_path p.
Proof.
  intros H. unfold names. rewrite body_strip. unfold inside in H. induction (inner_path p) as [|x l IH]; [reflexivity|]. cbn in H. cbn [map flat_map]. unfold to_comp at 1. destruct (String.eqb_spec x ".."); [subst; tauto|]. cbn. f_equal. apply IH. tauto.
Qed.
Lemma items_files es : Forall (fun e => e_regular e = true -> inside (e_path e)) es -> map (fun it : item => (names (fst it), snd it)) (items es) = package_files es.
Proof.
  induction 1 as [|e es H F IH]; [reflexivity|]. unfold items, package_files in *. cbn [flat_map]. rewrite map_app. f_equal; [|exact IH]. destruct (e_regular e); [|reflexivity]. destruct (e_data e); [|reflexivity]. cbn [map fst snd]. rewrite names_strip by auto. reflexivity.
Qed.
Lemma items_tame es : Forall (fun e => e_regular e = true -> inside (e_path e)) es -> Forall (fun it : item => tame (fst it)) (items es).
Proof.
  induction 1 as [|e es H F IH]; [constructor|]. cbn [items flat_map]. apply Forall_app. split; [|exact IH]. destruct (e_regular e); [|constructor]. destruct (e_data e); constructor; [|constructor]. cbn. apply tame_strip. auto.
Qed.
Lemma proper_items es : proper es -> Forall (fun it : item => tame (fst it)) (items es) /\ NoDup (map (fun it : item => names (fst it)) (items es)).
Proof. intros [H1 H2]. split; [now apply items_tame|]. rewrite <- (items_files es H1), map_map in H2. exact H2. Qed.
Lemma peqb_spec p q : peqb p q = true <-> p = q.
Proof. unfold peqb. destruct (path_eq_dec p q); split; congruence. Qed.
Lemma in_files es f : Forall (fun e => e_regular e = true -> inside (e_path e)) es -> In f (package_files es) <-> exists it, In it (items es) /\ f = (names (fst it), snd it).
Proof. intros H. rewrite <- (items_files es H), in_map_iff. split; intros (it & A & B); exists it; auto. Qed.
Lemma item_content es it : Forall (fun e => e_regular e = true -> inside (e_path e)) es -> In it (items es) -> In (i_data it) (contents_of es).
Proof. intros H Hi. unfold contents_of. apply in_map_iff. exists (names (fst it), snd it). split; [reflexivity|]. apply in_files; eauto. Qed.

(** ** contents below the destination *)
Lemma file_of_item es it : proper es -> In it (items es) -> file_of es (names (fst it)) = Some (snd it).
Proof. intros [H1 H2] Hi. unfold file_of. apply In_aget; [apply peqb_spec|exact H2|]. apply in_files; eauto. Qed.
Lemma file_of_none es q : proper es -> (forall it, In it (items es) -> names (fst it) <> q) -> file_of es q = None.
Proof.
  intros [H1 H2] Hn. unfold file_of. apply aget_None; [apply peqb_spec|]. intros H. apply in_map_iff in H. destruct H as (f & Ef & Hf). apply in_files in Hf; [|exact H1]. destruct Hf as (it & Hi & ->). now apply (Hn it).
Qed.
Lemma item_dec es q : {it | In it (items es) /\ names (fst it) = q} + {forall it, In it (items es) -> names (fst it) <> q}.
Proof.
  induction (items es) as [|it l IH]; [right; intros it []|]. destruct (path_eq_dec (names (fst it)) q) as [E|E]; [left; exists it; split; [now left|exact E]|].
  destruct IH as [(y & Hy & Ey)|IH]; [left; exists y; split; [now right|exact Ey]|right]. intros y [<-|Hy]; auto.
Qed.
Lemma exact_contents d es s1 s : proper es -> vacant d s1 ->
  (forall q, ~ In q (map (tgt d) (items es)) -> s_file s q = s_file s1 q) ->
  (forall it, In it (items es) -> exists i m, s_file s (tgt d it) = Some i /\ nth_error (s_inodes s) i = Some (i_data it, m)) -> holds_package d es s.
Proof.
  intros P V H1 H2 q. unfold contents_at, file_at. destruct (item_dec es q) as [(it & Hi & Eq)|Hn].
  - destruct (H2 it Hi) as (i & m & F1 & F2). unfold tgt in F1. rewrite Eq in F1. rewrite F1, F2, <- Eq, (file_of_item es it P Hi). reflexivity.
  - rewrite (file_of_none es q P Hn). rewrite H1; [now rewrite (proj1 (V (d ++ q) (prefix_app _ _)))|]. intros H. apply in_map_iff in H. destruct H as (it & E & Hi). unfold tgt in E. apply app_inv_head in E. now apply (Hn it).
Qed.
Lemma prefix_app_inv d (q r : path) : prefix (d ++ q) (d ++ r) <-> prefix q r.
Proof. split; intros [t E]; exists t; [rewrite <- app_assoc in E; now apply app_inv_head in E|now rewrite E, app_assoc]. Qed.
Lemma app_self (d q : path) : d ++ q = d -> q = [].
Proof. intros E. rewrite <- (app_nil_r d) in E at 2. now apply app_inv_head in E. Qed.
Lemma dirs_exact d es s1 s : proper es -> vacant d s1 -> (forall it, In it (items es) -> names (fst it) <> []) ->
  (forall q, q <> d -> prefix d q -> (s_dir s q = true <-> s_dir s1 q = true \/ (exists it, In it (items es) /\ prefix q (removelast (tgt d it))))) -> holds_dirs d es s.
Proof.
  intros P V Hne H q Nq. rewrite H; [|intros E; apply Nq; now apply app_self in E|apply prefix_app]. split.
  - intros [D|(it & Hi & Pr)]; [apply (proj2 (V (d ++ q) (prefix_app _ _))) in D; apply app_self in D; contradiction|]. exists (names (fst it), snd it). split; [apply in_files; [apply P|eauto]|]. cbn.
    unfold tgt in Pr. rewrite removelast_app in Pr by now apply Hne. exact (proj1 (prefix_app_inv _ _ _) Pr).
  - intros (f & Hf & Pr). right. apply in_files in Hf; [|apply P]. destruct Hf as (it & Hi & ->). exists it. split; [exact Hi|]. cbn in Pr. unfold tgt. rewrite removelast_app by now apply Hne. exact (proj2 (prefix_app_inv _ _ _) Pr).
Qed.
Lemma vacant_tgt d s es : vacant d s -> forall it i, In it (items es) -> s_file s (tgt d it) = Some i -> False.
Proof. intros V it i _ H. rewrite (proj1 (V (tgt d it) (prefix_app _ _))) in H. discriminate. Qed.
Lemma hash_items xxh es : Forall (fun e => e_regular e = true -> inside (e_path e)) es -> no_collision xxh (contents_of es) ->
  forall a b, In a (items es) -> In b (items es) -> xxh (i_data a) = xxh (i_data b) -> i_data a = i_data b.
Proof. intros P N a b Ha Hb E. apply N; auto; now apply item_content. Qed.

Section Thms.
  Variable check : string -> string -> bool.
  Variable limit : nat.
  Variable xxh : string -> string.
  Variables linkable reflinkable : bool.
  Variable blob_mode : nat.
  Variable untar : string -> list entry * bool.
  Variable manifest : string -> option (bool * list string).
  Notation tarball := (extract_tarball xxh linkable reflinkable blob_mode untar manifest).
  Notation stream := (extract_stream check limit xxh linkable reflinkable blob_mode untar manifest).
  Notation whole := (extract_to_dir check limit xxh linkable reflinkable blob_mode untar manifest).
  Definition entries (bytes : string) : list entry := fst (untar bytes).
  (** no entry is the destination itself *)
  Definition named_entries (es : list entry) : Prop := forall f, In f (package_files es) -> fst f <> [].
  Lemma named_items es : proper es -> named_entries es -> forall it, In it (items es) -> names (fst it) <> [].
  Proof. intros P N it Hi. apply (N (names (fst it), snd it)). apply in_files; [apply P|eauto]. Qed.
  Definition index_of (es : list entry) : tindex :=
    mkIdx (match mani_of manifest (items es) with Some (b, _) => b | None => false end) (match mani_of manifest (items es) with Some (_, b) => b | None => [] end) (map (idx_of xxh) (items es)).
  Theorem cold_contents d sri x bytes s k s' : proper (entries bytes) -> no_collision xxh (contents_of (entries bytes)) -> vacant d s ->
    tarball d sri true x bytes s = (Ok k, s') ->
    holds_package d (entries bytes) s' /\ (named_entries (entries bytes) -> holds_dirs d (entries bytes) s') /\
    s_index s' (tarball_key k) = Some (Some (index_of (entries bytes))) /\ (forall h, h <> tarball_key k -> s_index s' h = s_index s h).
  Proof.
    intros P N V E. destruct (proper_items _ P) as [T D].
    pose proof (cold_result xxh linkable reflinkable blob_mode manifest d s (items (entries bytes)) T D (hash_items xxh _ (proj1 P) N)
      (fun it i H1 H2 => match vacant_tgt d s _ V it i H1 H2 with end) (fun a b i H1 H2 H3 H4 => match vacant_tgt d s _ V a i H1 H3 with end) untar sri x bytes eq_refl) as R.
    rewrite E in R. destruct R as (_ & _ & _ & _ & sk & HK & HD & ->). split; [|split; [|split]].
    - apply (exact_contents d _ s); [exact P|exact V|apply HK|]. intros it Hi. destruct (k_done _ _ _ _ _ _ _ HK it Hi ltac:(discriminate)) as (i & m & C1 & C2 & _). eauto.
    - intros Nm. apply (dirs_exact d _ s); [exact P|exact V|now apply named_items|]. intros q Nq Pq. cbn. rewrite (HD q). split; [|intros [H|(it & Hi & H)]].
      + intros [H|[_ [H|H]]]; [auto| |auto]. exfalso. apply Nq. now apply prefix_antisym.
      + auto.
      + right. split; [intros ->; apply prefix_nil in Pq; congruence|right; eauto].
    - cbn [s_index set_index]. unfold supd. rewrite String.eqb_refl. reflexivity.
    - intros h Hh. cbn [s_index set_index]. unfold supd. destruct (String.eqb_spec h (tarball_key k)); [contradiction|]. now rewrite (k_index _ _ _ _ _ _ _ HK).
  Qed.
  Theorem plain_contents d sri x bytes s k s' : proper (entries bytes) -> vacant d s -> tarball d sri false x bytes s = (Ok k, s') ->
    holds_package d (entries bytes) s' /\ (named_entries (entries bytes) -> holds_dirs d (entries bytes) s').
  Proof.
    intros P V E. destruct (proper_items _ P) as [T D].
    pose proof (plain_result xxh linkable reflinkable blob_mode manifest d s (items (entries bytes)) T D untar sri x bytes eq_refl) as R. rewrite E in R.
    destruct R as (_ & HM & HD & _). split.
    - apply (exact_contents d _ s); [exact P|exact V|apply HM|]. intros it Hi. destruct (mm_done _ _ _ _ _ HM it Hi) as (i & C1 & C2). eauto.
    - intros Nm. apply (dirs_exact d _ s); [exact P|exact V|now apply named_items|]. intros q Nq Pq. rewrite (HD q). split; [|intros [H|(it & Hi & H)]].
      + intros [H|[_ [H|H]]]; [auto| |auto]. exfalso. apply Nq. now apply prefix_antisym.
      + auto.
      + right. split; [intros ->; apply prefix_nil in Pq; congruence|right; eauto].
  Qed.
  (** nothing in the cache collides with the package *)
  Definition cache_clear (es : list entry) (s : st) : Prop := no_collision xxh (contents_of es ++ map fst (s_inodes s)).
  Lemma perm_files es l : Permutation (x_files (index_of es)) l -> proper es ->
    Forall (fun it : item => tame (fst it)) l /\ NoDup (map (fun it : item => names (fst it)) l) /\ forall f, In f l <-> exists it, In it (items es) /\ f = idx_of xxh it.
  Proof.
    intros Pm P. destruct (proper_items _ P) as [T D]. cbn in Pm. split; [|split].
    - rewrite Forall_forall in *. intros f Hf. apply Permutation_sym in Pm. apply (Permutation_in _ Pm) in Hf. apply in_map_iff in Hf. destruct Hf as (it & <- & Hi). exact (T it Hi).
    - apply (Permutation_map (fun it : item => names (fst it))) in Pm. apply (Permutation_NoDup Pm). rewrite map_map. exact D.
    - intros f. split.
      + intros Hf. apply Permutation_sym in Pm. apply (Permutation_in _ Pm) in Hf. apply in_map_iff in Hf. destruct Hf as (it & <- & Hi). eauto.
      + intros (it & Hi & ->). apply (Permutation_in _ Pm). now apply in_map.
  Qed.
  Lemma warm_contents d l x es s s' u : proper es -> cache_clear es s -> vacant d s -> well_formed s -> Permutation (x_files (index_of es)) l ->
    warm xxh linkable reflinkable d (index_of es) l x s = (Ok u, s') -> holds_package d es s' /\ (named_entries es -> holds_dirs d es s').
  Proof.
    intros P C V W Pm E. destruct (perm_files es l Pm P) as (T & D & L).
    pose proof (warm_result xxh linkable reflinkable d s (index_of es) l x T D) as R. rewrite E in R.
    destruct R as [HK HD]; [intros it _; apply (V _ (prefix_app _ _))|apply W|]. split.
    - apply (exact_contents d es s); [exact P|exact V| |].
      + intros q Hq. apply (w_file _ _ _ _ _ _ _ HK). intros H. apply Hq. apply in_map_iff in H. destruct H as (f & <- & Hf). apply L in Hf. destruct Hf as (it & Hi & ->). apply in_map_iff. exists it. split; [reflexivity|exact Hi].
      + intros it Hi. destruct (w_done _ _ _ _ _ _ _ HK (idx_of xxh it)) as (i & c & m & i0 & m0 & C1 & C2 & C3 & _); [apply L; eauto|]. exists i, m. split; [exact C1|]. rewrite C2. do 2 f_equal.
        apply blob_spec in C3. destruct C3 as (B1 & B2 & B3). apply C; [apply in_or_app; right|apply in_or_app; left; apply item_content; [apply P|exact Hi]|exact B3].
        apply in_map_iff. exists (c, m0). split; [reflexivity|]. now apply nth_error_In in B2.
    - intros Nm. apply (dirs_exact d es s); [exact P|exact V|now apply named_items|]. intros q Nq Pq. rewrite (HD q). split.
      + intros [H|(_ & f & Hf & H)]; [auto|]. right. apply L in Hf. destruct Hf as (it & Hi & ->). exists it. auto.
      + intros [H|(it & Hi & H)]; [auto|]. right. split; [intros ->; apply prefix_nil in Pq; congruence|]. exists (idx_of xxh it). split; [apply L; eauto|exact H].
  Qed.
End Thms.
