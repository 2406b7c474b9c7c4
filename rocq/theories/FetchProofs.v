(** * Facts about resolving specs *)
From Verif Require Import Base Types StdPath SpecModel SpecSpec SpecProofs VersionModel FetchModel.
Open Scope string_scope.
Open Scope list_scope.

Lemma oseqb_spec a b : oseqb a b = true <-> a = b.
Proof. destruct a as [a|], b as [b|]; cbn; try rewrite String.eqb_eq; split; congruence. Qed.
Lemma get_resolution_np rsat canon is_any iparse tag base n s p : get_resolution rsat canon is_any iparse tag base n s p <> Panic.
Proof.
  unfold get_resolution. destruct (target s) as [q|? ?|? ? r|i]; try discriminate.
  - destruct (canon _); discriminate.
  - destruct (pt_versions p); [discriminate|]. cbn. discriminate.
  - destruct (pt_versions p) as [|x l]; [discriminate|]. destruct (pick_target _ _ _ _ p) as [t|]; [|discriminate].
    destruct (match t with Some x => _ | None => None end) as [m|]; [|discriminate]. destruct (vm_tarball m); [|discriminate].
    destruct (vm_integrity m); [destruct (iparse _); discriminate|]. destruct (vm_shasum m); [destruct (iparse _); discriminate|discriminate].
Qed.
(** what [pick_registry] picks, after any sequence of settings *)
Lemma registry_default r url scope : pick_registry (set_registry r url) scope = match scope with None => url | Some _ => match rget scope r with Some u => u | None => url end end.
Proof.
  unfold pick_registry, set_registry. destruct scope as [sc|].
  - rewrite aget_aput_neq by (try apply oseqb_spec; discriminate). rewrite aget_aput_eq by apply oseqb_spec. reflexivity.
  - rewrite aget_aput_eq by apply oseqb_spec. reflexivity.
Qed.
Lemma registry_scope r sc url scope : pick_registry (scope_registry r sc url) scope = if oseqb scope (Some (strip_at sc)) then url else pick_registry r scope.
Proof.
  unfold pick_registry, scope_registry. destruct (oseqb scope (Some (strip_at sc))) eqn:E.
  - apply oseqb_spec in E. subst. now rewrite aget_aput_eq by apply oseqb_spec.
  - assert (N : scope <> Some (strip_at sc)) by (intros H; apply oseqb_spec in H; congruence). rewrite aget_aput_neq by (try apply oseqb_spec; auto).
    rewrite (aget_aput_neq oseqb) by (try apply oseqb_spec; discriminate). reflexivity.
Qed.

Section World.
  Variable vparse : string -> option version.
  Variable rparse : string -> option range.
  Variable uparse uhost : string -> option string.
  Variable upath : string -> string.
  Notation shape := (spec_shape vparse rparse uparse uhost upath).
  Lemma scope_of_name sc n r sc' r' : npm_shape vparse rparse (SNpm sc n r) -> npm_shape vparse rparse (SNpm sc' n r') -> sc = sc'.
  Proof.
    assert (S : forall a b c d, safe_name a -> safe_name c -> (a ++ "/" ++ b = c ++ "/" ++ d)%string -> a = c).
    { intros a b c d [_ Ha] [_ Hc]. revert c Hc. induction a as [|x a IH]; intros [|y c] Hc H; [reflexivity| | |].
      - cbn in H. injection H as <- _. discriminate Hc.
      - cbn in H. injection H as -> _. discriminate Ha.
      - cbn in H. injection H as -> H. cbn [sall] in Ha, Hc. apply andb_true_iff in Ha, Hc. f_equal. apply IH; tauto. }
    intros H1 H2. inversion H1 as [? ? Hn _|sc1 n1 ? Hs1 Hn1 _]; subst; inversion H2 as [? ? Hn' _|sc2 n2 ? Hs2 Hn2 _ E]; subst.
    - reflexivity.
    - destruct Hn as [_ Hn]. discriminate Hn.
    - destruct Hn' as [_ Hn]. discriminate Hn.
    - f_equal. symmetry. exact (S sc2 n2 sc1 n1 Hs2 Hs1 H).
  Qed.

  Variable serve : string -> string -> option packument.
  Variable read_dir : string -> option (option string * packument).
  Variable file_name : string -> option string.
  Variable at_base sub : string -> string.
  Variable clone : string -> option string -> option range -> option string.
  Variable untar : gitinfo -> option string.
  Variable https_of ssh_of : gitinfo -> string.
  Variable rsat : range -> version -> bool.
  Variable canon : string -> option string.
  Variable is_any : range -> bool.
  Variable iparse : string -> option string.
  Variable default_tag : string.
  Variable regs : registries.
  Notation resolve memo := (resolve_spec serve read_dir file_name at_base sub clone untar https_of ssh_of rsat canon is_any iparse default_tag regs memo).
  Notation resolves memo := (resolve_all serve read_dir file_name at_base sub clone untar https_of ssh_of rsat canon is_any iparse default_tag regs memo).

  Definition bare_hosted (i : gitinfo) : Prop := exists o p h r, i = GHosted o p h None r None.
  Lemma of_opt_np A (o : option A) : of_opt o <> Panic.
  Proof. destruct o; discriminate. Qed.
  Lemma temp_panic i : fetch_to_temp_dir clone untar https_of ssh_of i = Panic <-> bare_hosted i.
  Proof.
    unfold bare_hosted. destruct i as [o p h [c|] r [q|]|u c r|x c r]; cbn [fetch_to_temp_dir has_tarball].
    all: try (split; [intros H; now apply of_opt_np in H|intros (? & ? & ? & ? & E); discriminate]).
    - split; [|intros (? & ? & ? & ? & E); discriminate]. destruct (untar _); [discriminate|]. destruct (clone _ _ _); [discriminate|]. intros H. now apply of_opt_np in H.
    - split; [eauto 6|reflexivity].
  Qed.
  Lemma name_np d : name_from_path read_dir file_name d <> Panic.
  Proof. unfold name_from_path. destruct (read_dir d) as [[[n|] p]|]; try discriminate. destruct (file_name d); discriminate. Qed.
  Lemma pack_np d : packument_from_path read_dir file_name d <> Panic.
  Proof. unfold packument_from_path. destruct (read_dir d) as [[[n|] p]|]; try discriminate. destruct (file_name d); discriminate. Qed.
  (** the step after the packument *)
  Lemma after_np n s (r : res err packument) : r <> Panic ->
    (let! p := r in let! q := get_resolution rsat canon is_any iparse default_tag at_base n s p in Ok (mkPkg n s q)) <> Panic.
  Proof.
    intros H. destruct r as [p| |]; cbn; [|discriminate|contradiction]. destruct (get_resolution _ _ _ _ _ _ n s p) eqn:E; cbn; try discriminate. now apply get_resolution_np in E.
  Qed.
  Lemma resolve_panic memo s m : shape s -> fst (resolve memo s m) = Panic <-> (exists n p, s = SAlias n (SDir p)) \/ (exists i, target s = SGit i /\ bare_hosted i).
  Proof.
    intros Hs. assert (Npm : forall sc n r nm, target s = SNpm sc n r -> pick_fetcher s = FNpm -> fetch_name read_dir file_name at_base sub clone untar https_of ssh_of FNpm s = Ok nm -> fst (resolve memo s m) <> Panic).
    { intros sc n r nm T F N. unfold resolve_spec. rewrite F, N. cbn [fetch_packument]. rewrite T. destruct (if memo then sget n m else None) as [p|]; cbn [fst]; [now apply after_np|].
      destruct (serve _ n) as [p|]; cbn [fst]; now apply after_np. }
    destruct s as [p|n s|sc n r|i]; cbn [spec_shape base_shape target] in *.
    - split; [|intros [(? & ? & E) | (? & E & _)]; discriminate]. unfold resolve_spec. cbn [pick_fetcher fetch_name fetch_packument]. intros H. exfalso.
      destruct (name_from_path read_dir file_name (at_base p)) eqn:E; [|discriminate|now apply name_np in E]. cbn [fst] in H. revert H. apply after_np, pack_np.
    - destruct Hs as [_ Hs]. destruct s as [p|? ?|sc k r|i]; cbn [base_shape target] in *; [| contradiction | |].
      + split; [eauto|]. intros _. reflexivity.
      + split; [|intros [(? & ? & E) | (? & E & _)]; discriminate]. intros H. exfalso. revert H. eapply Npm; reflexivity.
      + unfold resolve_spec. cbn [pick_fetcher fetch_name fetch_packument target fst]. split.
        * intros H. right. exists i. split; [reflexivity|]. apply temp_panic. destruct (fetch_to_temp_dir clone untar https_of ssh_of i) eqn:E; [| |reflexivity]; exfalso; cbn [is_alias] in H; rewrite E in H; cbn [rbind fst] in H; revert H; [apply after_np, pack_np|discriminate].
        * intros [(? & ? & E) | (j & E & Hb)]; [discriminate|]. cbn in E. injection E as E. subst j. apply temp_panic in Hb. cbn [is_alias]. rewrite Hb. reflexivity.
    - split; [|intros [(? & ? & E) | (? & E & _)]; discriminate]. intros H. exfalso. revert H. eapply Npm; reflexivity.
    - unfold resolve_spec. cbn [pick_fetcher fetch_name fetch_packument target]. split.
      + intros H. right. exists i. split; [reflexivity|]. apply temp_panic. destruct (fetch_to_temp_dir clone untar https_of ssh_of i) as [d| |] eqn:E; [|discriminate|reflexivity]. exfalso. cbn [rbind] in H.
        destruct (name_from_path read_dir file_name (sub d)) eqn:E1; [|discriminate|now apply name_np in E1]. cbn [fst] in H. revert H. apply after_np, pack_np.
      + intros [(? & ? & E) | (j & E & Hb)]; [discriminate|]. cbn in E. injection E as E. subst j. apply temp_panic in Hb. cbn [is_alias]. rewrite Hb. reflexivity.
  Qed.

  (** ** remembered packuments *)
  Definition remembers (m : memory) : Prop := forall sc n r p, npm_shape vparse rparse (SNpm sc n r) -> sget n m = Some p -> serve (pick_registry regs sc) n = Some p.
  Lemma fetch_memo f s m : shape s -> remembers m -> f = pick_fetcher s ->
    fst (fetch_packument serve read_dir file_name at_base sub clone untar https_of ssh_of regs true f s m) = fst (fetch_packument serve read_dir file_name at_base sub clone untar https_of ssh_of regs false f s [])
    /\ remembers (snd (fetch_packument serve read_dir file_name at_base sub clone untar https_of ssh_of regs true f s m)).
  Proof.
    intros Hs Hm Hf.
    assert (Npm : forall sc n r, target s = SNpm sc n r -> npm_shape vparse rparse (SNpm sc n r) -> f = FNpm ->
       fst (fetch_packument serve read_dir file_name at_base sub clone untar https_of ssh_of regs true f s m) = fst (fetch_packument serve read_dir file_name at_base sub clone untar https_of ssh_of regs false f s [])
       /\ remembers (snd (fetch_packument serve read_dir file_name at_base sub clone untar https_of ssh_of regs true f s m))).
    { intros sc n r T Sh ->. cbn [fetch_packument]. rewrite T. destruct (sget n m) as [p|] eqn:G.
      - cbn [fst snd]. rewrite (Hm _ _ _ _ Sh G). auto.
      - destruct (serve (pick_registry regs sc) n) as [p|] eqn:Sv; cbn [fst snd]; [|auto]. split; [reflexivity|]. intros sc' n' r' p' Sh' G'.
        destruct (String.eqb_spec n' n) as [->|Hne].
        + rewrite aget_aput_eq in G' by apply String.eqb_eq. injection G' as <-. now rewrite (scope_of_name _ _ _ _ _ Sh' Sh).
        + rewrite aget_aput_neq in G' by (try apply String.eqb_eq; auto). eapply Hm; eauto. }
    destruct s as [p|a s|sc n r|i]; cbn [spec_shape base_shape pick_fetcher target] in *.
    - subst f. split; [reflexivity|exact Hm].
    - destruct Hs as [_ Hs]. destruct s as [p|? ?|sc k r|i]; cbn [base_shape pick_fetcher target] in *; [subst f; split; [reflexivity|exact Hm]|contradiction|eapply Npm; [reflexivity|exact Hs|exact Hf]|subst f; split; [reflexivity|exact Hm]].
    - eapply Npm; [reflexivity|exact Hs|exact Hf].
    - subst f. split; [reflexivity|exact Hm].
  Qed.
  Lemma resolve_memo s m : shape s -> remembers m -> fst (resolve true s m) = fst (resolve false s []) /\ remembers (snd (resolve true s m)).
  Proof.
    intros Hs Hm. unfold resolve_spec. destruct (fetch_name read_dir file_name at_base sub clone untar https_of ssh_of (pick_fetcher s) s) as [n| |]; cbn [fst snd]; auto.
    destruct (fetch_memo (pick_fetcher s) s m Hs Hm eq_refl) as [A B].
    destruct (fetch_packument serve read_dir file_name at_base sub clone untar https_of ssh_of regs true (pick_fetcher s) s m) as [r m'] eqn:E1.
    destruct (fetch_packument serve read_dir file_name at_base sub clone untar https_of ssh_of regs false (pick_fetcher s) s []) as [r' m''] eqn:E2. cbn [fst snd] in *. subst r'. auto.
  Qed.
  Lemma resolves_memo l : forall m, Forall shape l -> remembers m -> fst (resolves true l m) = map (fun s => fst (resolve false s [])) l.
  Proof.
    induction l as [|s l IH]; intros m Hl Hm; [reflexivity|]. inversion Hl as [|? ? Hs Hl']; subst. cbn [resolve_all map].
    destruct (resolve_memo s m Hs Hm) as [A B]. destruct (resolve true s m) as [r m1]. cbn [fst snd] in A, B. specialize (IH m1 Hl' B).
    destruct (resolves true l m1) as [rs m2]. cbn [fst] in *. now rewrite A, IH.
  Qed.
End World.

(** what a registry serves elsewhere makes no difference *)
Lemma resolve_local serve serve' read_dir file_name at_base sub clone untar https_of ssh_of rsat canon is_any iparse tag regs s sc n r :
  target s = SNpm sc n r -> serve (pick_registry regs sc) n = serve' (pick_registry regs sc) n ->
  fst (resolve_spec serve read_dir file_name at_base sub clone untar https_of ssh_of rsat canon is_any iparse tag regs false s [])
  = fst (resolve_spec serve' read_dir file_name at_base sub clone untar https_of ssh_of rsat canon is_any iparse tag regs false s []).
Proof.
  intros T E. assert (F : pick_fetcher s = FNpm) by (clear E; induction s as [|a s IH| |]; cbn in *; try discriminate; [|reflexivity]; destruct (is_alias s); [auto|subst s; reflexivity]). unfold resolve_spec. rewrite F. cbn [fetch_packument].
  rewrite T. cbn beta iota. rewrite E. destruct (fetch_name _ _ _ _ _ _ _ _ FNpm s); reflexivity.
Qed.
