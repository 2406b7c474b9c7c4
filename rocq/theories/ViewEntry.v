(** * oro view: what is read from an entry and printed again *)
From Verif Require Import Base Types StdPath JsonModel JsonSpec JsonRead JsonReadProofs ResolverModel Kdl VersionModel VersionSpec VersionProofs ManifestRead ManifestProofs
  PackumentModel PackumentSpec PackumentProofs ViewModel ViewSpec ViewProofs JsonSpec.
Open Scope string_scope.
Open Scope list_scope.
Set Implicit Arguments.

Definition readable (l : list (string * json)) (f : field_spec) : Prop := exists a, read_field f l = Some a.
Lemma fields_ok fs l : (exists r, read_fields fs l = Some r) <-> Forall (readable l) fs.
Proof.
  induction fs as [|f fs IH]; cbn [read_fields]; [split; eauto|]. split.
  - intros (r & H). destruct (read_field f l) as [a|] eqn:E; [|discriminate]. destruct (read_fields fs l) as [b|]; [|discriminate]. constructor; [exists a; exact E|apply IH; eauto].
  - intros H. inversion H as [|? ? (a & A) B]; subst. apply IH in B. destruct B as (b & ->). rewrite A. eauto.
Qed.
Lemma flat_ok fs l : (exists r, read_flat fs l = Some r) <-> Forall (readable l) fs.
Proof. rewrite <- fields_ok. unfold read_flat. destruct (read_fields fs l); cbn; split; intros (r & H); try discriminate; eauto. Qed.
Lemma single_ok l k c h m P : NoDup (map fst l) -> accepts c P -> (readable l (mkField [k] c h m) <-> forall v, sget k l = Some v -> P v).
Proof.
  intros N A. unfold readable. rewrite field_single by exact N. destruct (sget k l) as [v|]; [|split; [discriminate|eauto]]. split.
  - intros (a & H) v' E. injection E as <-. destruct (c v) as [w|] eqn:Ec; [|discriminate]. apply A. eauto.
  - intros H. destruct (proj2 (A v) (H v eq_refl)) as (w & ->). eauto.
Qed.
Lemma alias_ok l k a c h m P : NoDup (map fst l) -> k <> a -> accepts c P ->
  (readable l (mkField [k; a] c h m) <-> (forall v, sget k l = Some v -> P v) /\ (forall v, sget a l = Some v -> P v) /\ (sget k l = None \/ sget a l = None)).
Proof.
  intros N Na A. unfold readable. rewrite field_alias by auto. destruct (sget k l) as [v|], (sget a l) as [u|].
  - split; [intros (x & H); discriminate|intros (_ & _ & [H|H]); discriminate].
  - split.
    + intros (x & H). destruct (c v) as [w|] eqn:E; [|discriminate]. split; [intros v' E'; injection E' as <-; apply A; eauto|]. split; [discriminate|auto].
    + intros (H & _). destruct (proj2 (A v) (H v eq_refl)) as (w & ->). eauto.
  - split.
    + intros (x & H). destruct (c u) as [w|] eqn:E; [|discriminate]. split; [discriminate|]. split; [intros v' E'; injection E' as <-; apply A; eauto|auto].
    + intros (_ & H & _). destruct (proj2 (A u) (H u eq_refl)) as (w & ->). eauto.
  - split; [intros _; split; [discriminate|split; [discriminate|auto]]|eauto].
Qed.

Section Entry.
  Variable vparse : string -> option version.
  Variable vshow : version -> string.
  Variable rnorm : string -> option string.
  Variable uparse : string -> option string.
  Variable is_count : string -> bool.
  Notation metadata_fields := (metadata_fields vparse vshow rnorm uparse is_count).
  Notation shapes := (shapes vparse uparse is_count).
  Notation c_version := (c_version vparse vshow).
  Notation c_url := (c_url uparse).
  Notation c_count := (c_count is_count).
  Notation c_dist := (c_dist uparse is_count).
  Notation dist_fields := (dist_fields uparse is_count).

  Lemma acc_version : accepts c_version (is_version vparse).
  Proof.
    intros v. unfold ViewModel.c_version, is_version. destruct v; split; try (intros (w & H); discriminate); try (intros (t & H & _); discriminate).
    - intros (w & H). exists s. split; [auto|]. destruct (vparse s); [discriminate|discriminate H].
    - intros (t & H & N). injection H as <-. destruct (vparse s); [cbn; eauto|congruence].
  Qed.
  Lemma acc_url : accepts c_url (is_url uparse).
  Proof.
    intros v. unfold ViewModel.c_url, is_url. destruct v; split; try (intros (w & H); discriminate); try (intros (t & H & _); discriminate).
    - intros (w & H). exists s. split; [auto|]. destruct (uparse s); [discriminate|discriminate H].
    - intros (t & H & N). injection H as <-. destruct (uparse s); [cbn; eauto|congruence].
  Qed.
  Lemma acc_count : accepts c_count (is_size is_count).
  Proof.
    intros v. unfold ViewModel.c_count, is_size. destruct v; split; try (intros (w & H); discriminate); try (intros (t & H & _); discriminate).
    - intros (w & H). exists s. split; [auto|]. destruct (is_count s); [auto|discriminate].
    - intros (t & H & N). injection H as <-. rewrite N. eauto.
  Qed.
  Lemma acc_person : accepts c_person person.
  Proof. apply acc_or; [apply acc_text|]. exact (acc_record ["name"; "email"; "url"]). Qed.
  Lemma acc_npm_user : accepts c_npm_user (fun v => record_with ["email"] v /\ exists l s, v = JObj l /\ sget "name" l = Some (JStr s)).
  Proof.
    intros v. unfold c_npm_user, record_with. destruct v as [ | | | | |l]; try (cbn; split; [intros (w & H); discriminate H|intros ((l' & H & _) & _); discriminate H]). cbn [c_record c_fields]. split.
    - intros (w & H). destruct (sget "name" l) as [[ | | |s| | ]|] eqn:En; try discriminate. cbn [c_text] in H.
      destruct (match sget "email" l with Some v => _ | None => _ end) as [e|] eqn:Ee; [|discriminate]. split; [|eauto]. exists l. split; [auto|].
      intros k [<-|[]]. unfold text_or_null. destruct (sget "email" l) as [ev|]; [|auto]. destruct (proj1 (opt_text_reads ev) (ex_intro _ _ Ee)) as [->|(t & ->)]; eauto.
    - intros ((l' & E & H) & l2 & s & E2 & En). injection E as <-. injection E2 as <-. rewrite En. cbn [c_text].
      destruct (H "email" (or_introl eq_refl)) as [->|[->|(t & ->)]]; cbn; eauto.
  Qed.
  Lemma acc_engines : accepts (c_engines rnorm) whatever.
  Proof. intros v. split; [exact (fun _ => I)|]. unfold c_engines, c_or. destruct (c_map _ v); eauto. Qed.
  Lemma opt_text_field o : (forall v, o = Some v -> nullable is_text v) <-> text_or_null o.
  Proof.
    unfold nullable, is_text, text_or_null. split.
    - intros H. destruct o as [v|]; [|auto]. destruct (H v eq_refl) as [->|(s & ->)]; eauto.
    - intros [->|[->|(s & ->)]] v E; [discriminate|injection E as <-; auto|injection E as <-; eauto].
  Qed.
  Lemma acc_dist v : (forall l, v = JObj l -> NoDup (map fst l)) -> (exists w, c_dist v = Some w) <-> full_dist uparse is_count v.
  Proof.
    intros N0. unfold full_dist. destruct v as [ | | | | |l]; try (split; [intros (w & H); discriminate|intros (l' & H & _); discriminate]). specialize (N0 l eq_refl). cbn [ViewModel.c_dist].
    assert (F : (exists w, option_map JObj (read_flat dist_fields l) = Some w) <-> exists r, read_flat dist_fields l = Some r).
    { destruct (read_flat dist_fields l); cbn; split; intros (r & H); try discriminate; eauto. }
    rewrite F, flat_ok. unfold ViewModel.dist_fields. rewrite !Forall_cons_iff, !(fun k h m => @single_ok l k _ h m _ N0 (acc_opt acc_text)), (fun k h m => @single_ok l k _ h m _ N0 (acc_opt acc_url)), !(fun k h m => @single_ok l k _ h m _ N0 (acc_opt acc_count)).
    rewrite !opt_text_field. split.
    - intros (H1 & H2 & H3 & H4 & H5 & H6 & _). exists l. split; [auto|]. split; [intros k [<-|[<-|[<-|[]]]]; auto|]. split; [exact H2|]. intros k u [<-|[<-|[]]]; auto.
    - intros (l' & E & A & B & C). injection E as <-. repeat split; try (apply A; cbn; tauto); try exact B; try (intros u Hu; eapply C; [|exact Hu]; cbn; tauto). constructor.
  Qed.

  Hint Resolve acc_text acc_bool acc_any acc_version acc_person acc_npm_user acc_engines acc_opt_any : acc.
  Ltac acc := first [ solve [apply acc_opt_any] | apply acc_opt; acc | apply acc_or; acc | apply acc_list; acc | apply acc_map; acc | solve [auto with acc]
    | match goal with |- accepts (c_record _) _ => first [exact (acc_record ["url"; "email"]) | exact (acc_record ["type"; "url"; "directory"])] end | solve [eauto with acc] ].

  Ltac inn := unfold ViewSpec.shapes; repeat (first [left; reflexivity|right]).
  Lemma metadata_ok l : NoDup (map fst l) -> (forall d, sget "dist" l = Some (JObj d) -> NoDup (map fst d)) ->
    (exists r, read_metadata vparse vshow rnorm uparse is_count (JObj l) = Some r) <-> good_full_entry vparse uparse is_count (JObj l).
  Proof.
    intros N Nd. unfold read_metadata. rewrite flat_ok. unfold good_full_entry. cbn [is_obj field].
    assert (D : readable l (mkField ["dist"] c_dist h_never [("dist", no_dist uparse is_count)]) <-> forall v, sget "dist" l = Some v -> full_dist uparse is_count v).
    { unfold readable. rewrite field_single by exact N. destruct (sget "dist" l) as [v|] eqn:Ed; [|split; [discriminate|eauto]].
      assert (Nv : forall x, v = JObj x -> NoDup (map fst x)) by (intros x ->; now apply Nd). split.
      - intros (a & H) v' E. injection E as <-. apply (acc_dist Nv). destruct (c_dist v) as [w|]; [eauto|discriminate].
      - intros H. destruct (proj2 (acc_dist Nv) (H v eq_refl)) as (w & ->). eauto. }
    assert (L : readable l (mkField ["license"; "licence"] (c_opt c_text) h_null []) <-> _) by (apply (@alias_ok l "license" "licence"); [exact N|discriminate|acc]).
    assert (B : readable l (mkField ["bundledDependencies"; "bundleDependencies"] (c_opt c_bundled) h_bundled []) <-> _)
      by (apply (@alias_ok l "bundledDependencies" "bundleDependencies"); [exact N|discriminate|unfold c_bundled; acc]).
    split.
    - intros H. unfold ViewModel.metadata_fields, version_fields, manifest_fields, f_opt, f_default in H. cbn [app] in H.
      repeat match type of H with Forall _ (_ :: _) => apply Forall_cons_iff in H; let X := fresh "X" in destruct H as [X H] end.
      assert (HL : readable l (mkField ["license"; "licence"] (c_opt c_text) h_null [])) by assumption.
      assert (HB : readable l (mkField ["bundledDependencies"; "bundleDependencies"] (c_opt c_bundled) h_bundled [])) by assumption.
      apply L in HL. apply B in HB. destruct HL as (L1 & L2 & L3), HB as (B1 & B2 & B3).
      split; [reflexivity|]. split; [|split; [exact L3|exact B3]].
      intros k P v Hin Hv. unfold ViewSpec.shapes in Hin. cbn [In] in Hin.
      repeat (destruct Hin as [Hin|Hin]; [injection Hin as <- <-;
        lazymatch type of Hv with
        | sget "license" l = _ => exact (L1 v Hv) | sget "licence" l = _ => exact (L2 v Hv)
        | sget "bundledDependencies" l = _ => exact (B1 v Hv) | sget "bundleDependencies" l = _ => exact (B2 v Hv)
        | sget "dist" l = _ => refine (proj1 D _ v Hv); assumption
        | sget ?k l = _ => match goal with X : readable l (mkField [k] ?c ?h ?m) |- ?P v =>
            refine (proj1 (@single_ok l k c h m P N _) X v Hv); unfold c_bugs, c_bin, c_man, c_repository; acc end
        end|]).
      destruct Hin.
    - intros (_ & H & HL & HB). unfold ViewModel.metadata_fields, version_fields, manifest_fields, f_opt, f_default. cbn [app].
      assert (G : forall k P, In (k, P) shapes -> forall v, sget k l = Some v -> P v) by (intros k P Hin v Hv; exact (H k P v Hin Hv)). clear H.
      repeat (apply Forall_cons; [lazymatch goal with
        | |- readable l (mkField ["dist"] _ _ _) => apply D; apply G; inn
        | |- readable l (mkField ["license"; _] _ _ _) => apply L; split; [apply G; inn|split; [apply G; inn|exact HL]]
        | |- readable l (mkField ["bundledDependencies"; _] _ _ _) => apply B; split; [apply G; inn|split; [apply G; inn|exact HB]]
        | |- readable l (mkField [?k] ?c ?h ?m) => let A := fresh "A" in eassert (A : accepts c _) by (unfold c_bugs, c_bin, c_man, c_repository; acc); apply (proj2 (@single_ok l k c h m _ N A)); apply G; inn
        end|]). apply Forall_nil.
  Qed.
End Entry.
