(** * Properties C30, C31, C46: package specs, and resolving them.
    [parse]: PackageSpec::from_str; [show]: its Display; [kind_of], [starts], [plain_spec], [semver_printing], [url_printing]: SpecSpec;
    [resolve_spec]: Nassun::resolve_spec. *)
From Verif Require Import Base Types StdPath SpecModel SpecSpec SpecProofs SpecRound SpecKind VersionModel FetchModel FetchProofs.
Open Scope list_scope.
Open Scope string_scope.

Section Parsing.
  Variable vparse : string -> option version.
  Variable vshow : version -> string.
  Variable rparse : string -> option range.
  Variable uparse uhost : string -> option string.
  Variable upath uscheme : string -> string.
  Notation parse := (parse_package_spec vparse rparse uparse uhost upath).
  Notation show := (show_spec vshow uscheme).

  (** C30, the part that holds: every parsed spec that is plain reads back from its printed form as itself. *)
  Theorem C30_partial : semver_printing vparse vshow rparse -> url_printing uparse -> forall s sp, parse s = Ok sp -> plain_spec vparse uparse uhost upath uscheme sp -> parse (show sp) = Ok sp.
  Proof. intros SP UP s sp H P. apply round; auto. eapply parse_shape; eauto. Qed.
  (** in particular registry specs with a version or a range, and aliases of them *)
  Theorem C30_npm_partial : semver_printing vparse vshow rparse -> url_printing uparse -> forall s sc n r, parse s = Ok (SNpm sc n r) ->
    (forall t, n <> String "." t) -> match r with Some (VRange x) => vparse x = None | Some (VTag t) => forall u, t <> String "." u | _ => True end ->
    parse (show (SNpm sc n r)) = Ok (SNpm sc n r).
  Proof.
    intros SP UP s sc n r H Hn Hr. apply (C30_partial SP UP s); [exact H|]. cbn. split; [intros (x & E); now apply (Hn x)|]. split; [destruct r as [[x|x|x]|]; cbn; auto|].
    intros x -> (u & E). now apply (Hr u).
  Qed.
  (** C30 as stated fails: a directory with '@' in its name reads back as an alias (whatever the external parsers do). *)
  Theorem C30_refuted : exists s sp, parse s = Ok sp /\ parse (show sp) <> Ok sp.
  Proof. exists "file:./foo@npm:bar", (SDir "./foo@npm:bar"). split; [reflexivity|]. vm_compute. discriminate. Qed.
  (** nor do a registry name that starts with a dot, or an ssh remote on a known host: its printed form is rejected *)
  Theorem C30_refuted_npm : parse "npm:.foo" = Ok (SNpm None ".foo" None) /\ parse (show (SNpm None ".foo" None)) = Ok (SDir ".foo").
  Proof. split; reflexivity. Qed.
  Theorem C30_refuted_ssh : uparse "ssh://git@github.com:foo/bar.git" = None -> uparse "git@github.com:foo/bar.git" = None ->
    exists sp, parse "git+ssh://git@github.com:foo/bar.git" = Ok sp /\ parse (show sp) = Err EInvalidSpec.
  Proof.
    intros H1 H2. exists (SGit (GHosted "foo" "bar" GitHub None None (Some "git@github.com:foo/bar.git"))).
    assert (U : forall t, uparse t = None -> till1 (is hash) t = POk "" t -> git_url rparse uparse uhost upath ("git+" ++ t) = PErr).
    { intros t Ht E. unfold git_url. rewrite tag_app. cbn [palt pbind]. unfold pres_map. rewrite E. cbn [pbind]. now rewrite Ht. }
    split.
    - apply parse_ok. assert (G := proj1 (parse_git vparse rparse uparse uhost upath "git" "+" "git+ssh://git@github.com:foo/bar.git" ltac:(cbn; auto) ltac:(exists "git+", "ssh://git@github.com:foo/bar.git"; auto))).
      rewrite G. unfold git_spec. pose proof (U "ssh://git@github.com:foo/bar.git" H1 eq_refl) as E. cbn [append] in E. rewrite E. reflexivity.
    - change (show _) with ("git+" ++ "git@github.com:foo/bar.git"). unfold parse_package_spec.
      assert (G := proj1 (parse_git vparse rparse uparse uhost upath "git" "+" "git+git@github.com:foo/bar.git" ltac:(cbn; auto) ltac:(exists "git+", "git@github.com:foo/bar.git"; auto))).
      change ("git+" ++ "git@github.com:foo/bar.git") with "git+git@github.com:foo/bar.git" at 1. rewrite G. unfold git_spec. pose proof (U "git@github.com:foo/bar.git" H2 eq_refl) as E. cbn [append] in E. rewrite E. reflexivity.
  Qed.

  (** C31: the target of a parsed spec is never an alias. *)
  Theorem C31_target : forall s sp, parse s = Ok sp -> is_alias (target sp) = false.
  Proof. intros s sp. apply parse_target. Qed.
  (** C31: a spec that starts with one of these words, in any case, is of the kind the word says or is rejected... *)
  Theorem C31_prefix : forall s sp, parse s = Ok sp ->
    (starts "npm:" s -> kind_of sp = KNpm) /\ (starts "file:" s -> kind_of sp = KDir)
    /\ (forall w, In w ["git+"; "git:"; "github:"; "gist:"; "gitlab:"; "bitbucket:"; "ssh:"] -> starts w s -> kind_of sp = KGit).
  Proof.
    intros s sp H. repeat split.
    - intros Hs. exact (marked_kind _ _ _ _ _ "npm" ":" s sp ltac:(cbn; auto 20) Hs H).
    - intros Hs. exact (marked_kind _ _ _ _ _ "file" ":" s sp ltac:(cbn; auto 20) Hs H).
    - intros w Hw Hs. cbn in Hw. destruct Hw as [<- | [<- | [<- | [<- | [<- | [<- | [<- | []]]]]]]].
      + exact (marked_kind _ _ _ _ _ "git" "+" s sp ltac:(cbn; auto 20) Hs H).
      + exact (marked_kind _ _ _ _ _ "git" ":" s sp ltac:(cbn; auto 20) Hs H).
      + exact (marked_kind _ _ _ _ _ "github" ":" s sp ltac:(cbn; auto 20) Hs H).
      + exact (marked_kind _ _ _ _ _ "gist" ":" s sp ltac:(cbn; auto 20) Hs H).
      + exact (marked_kind _ _ _ _ _ "gitlab" ":" s sp ltac:(cbn; auto 20) Hs H).
      + exact (marked_kind _ _ _ _ _ "bitbucket" ":" s sp ltac:(cbn; auto 20) Hs H).
      + exact (marked_kind _ _ _ _ _ "ssh" ":" s sp ltac:(cbn; auto 20) Hs H).
  Qed.
  (** ... and with a name and '@' in front it is an alias of exactly that spec. A name: letters, digits, -_.!~*'() , with or without @scope/. *)
  Definition plain_name (n : string) : Prop := n <> "" /\ sall urlc n = true.
  Inductive package_name : string -> Prop :=
  | pn_plain n : plain_name n -> package_name n
  | pn_scoped sc n : plain_name sc -> plain_name n -> package_name ("@" ++ sc ++ "/" ++ n).
  Theorem C31_alias : forall n s sp, package_name n ->
    Exists (fun w => starts w s) ["npm:"; "file:"; "git+"; "git:"; "github:"; "gist:"; "gitlab:"; "bitbucket:"; "ssh:"] -> parse s = Ok sp -> parse (n ++ "@" ++ s) = Ok (SAlias n sp).
  Proof.
    intros n s sp Hn Hw H. assert (An : alias_name n) by (destruct Hn; constructor; assumption). apply Exists_exists in Hw. destruct Hw as (w & Hw & Hs).
    cbn in Hw. destruct Hw as [<- | [<- | [<- | [<- | [<- | [<- | [<- | [<- | [<- | []]]]]]]]]].
    - exact (alias_parse _ _ _ _ _ "npm" ":" n s sp An ltac:(cbn; auto 20) Hs H).
    - exact (alias_parse _ _ _ _ _ "file" ":" n s sp An ltac:(cbn; auto 20) Hs H).
    - exact (alias_parse _ _ _ _ _ "git" "+" n s sp An ltac:(cbn; auto 20) Hs H).
    - exact (alias_parse _ _ _ _ _ "git" ":" n s sp An ltac:(cbn; auto 20) Hs H).
    - exact (alias_parse _ _ _ _ _ "github" ":" n s sp An ltac:(cbn; auto 20) Hs H).
    - exact (alias_parse _ _ _ _ _ "gist" ":" n s sp An ltac:(cbn; auto 20) Hs H).
    - exact (alias_parse _ _ _ _ _ "gitlab" ":" n s sp An ltac:(cbn; auto 20) Hs H).
    - exact (alias_parse _ _ _ _ _ "bitbucket" ":" n s sp An ltac:(cbn; auto 20) Hs H).
    - exact (alias_parse _ _ _ _ _ "ssh" ":" n s sp An ltac:(cbn; auto 20) Hs H).
  Qed.
  (** C31: plain text. A name is that registry package, name@version that version of it, owner/repo that GitHub repository. *)
  Theorem C31_plain : semver_printing vparse vshow rparse -> url_printing uparse ->
    forall n, plain_name n -> ~ starts_dot n ->
      parse n = Ok (SNpm None n None)
      /\ (forall sc, plain_name sc -> parse ("@" ++ sc ++ "/" ++ n) = Ok (SNpm (Some sc) ("@" ++ sc ++ "/" ++ n) None))
      /\ (forall t v, vparse t = Some v -> parse (n ++ "@" ++ vshow v) = Ok (SNpm None n (Some (VVersion v))))
      /\ (forall p, plain_name p -> parse (n ++ "/" ++ p) = Ok (SGit (GHosted n p GitHub None None None))).
  Proof.
    intros SP UP n Hn Hd. repeat split.
    - replace n with (show (SNpm None n None)) at 1 by apply sapp_nil. apply round; auto; [now constructor|]. cbn. repeat split; auto. discriminate.
    - intros sc Hsc. rewrite <- (sapp_nil ("@" ++ sc ++ "/" ++ n)) at 1. apply (round vparse vshow rparse uparse uhost upath uscheme SP UP (SNpm (Some sc) ("@" ++ sc ++ "/" ++ n) None)); [now constructor|].
      cbn. repeat split; [intros (t & E); discriminate|discriminate].
    - intros t v Hv. apply (round vparse vshow rparse uparse uhost upath uscheme SP UP (SNpm None n (Some (VVersion v)))); [constructor; [exact Hn|now exists t]|]. cbn. repeat split; auto. discriminate.
    - intros p Hp. now apply owner_repo.
  Qed.
  (** C31 fails for paths without "file:": one with '@' and '/' in it is taken for an alias *)
  Theorem C31_refuted_path : parse "./foo@bar/baz" = Ok (SAlias "./foo" (SGit (GHosted "bar" "baz" GitHub None None None))).
  Proof. reflexivity. Qed.
  (** C31, parsing never crashes, except on a URL of a known git host with an empty path... *)
  Theorem C31_parse_partial : (forall t u h, uparse t = Some u -> uhost u = Some h -> In h ["github.com"; "gitlab.com"; "gist.github.com"; "bitbucket.org"] -> upath u <> "") -> forall s, parse s <> Panic.
  Proof.
    intros H s P. apply parse_panic in P. destruct P as (t & u & h & H1 & H2 & H3 & H4). apply (H t u h H1 H2); [|exact H4]. clear - H3. unfold known_host in H3.
    destruct (String.eqb_spec h "github.com"); [cbn; auto|]. destruct (String.eqb_spec h "gitlab.com"); [cbn; auto|]. destruct (String.eqb_spec h "gist.github.com"); [cbn; auto|].
    destruct (String.eqb_spec h "bitbucket.org"); [cbn; auto|]. now destruct H3.
  Qed.
  (** ... such as git://github.com, where it does crash (the path of a URL of a scheme like git: may be empty) *)
  Theorem C31_refuted_parse : uparse "git://github.com" = Some "git://github.com" -> uhost "git://github.com" = Some "github.com" -> upath "git://github.com" = "" -> parse "git://github.com" = Panic.
  Proof. intros H1 H2 H3. unfold parse_package_spec.
    assert (G := proj1 (parse_git vparse rparse uparse uhost upath "git" ":" "git://github.com" ltac:(cbn; auto) ltac:(exists "git:", "//github.com"; auto))).
    rewrite G. unfold git_spec, git_url, pres_map. change (tag "git+" "git://github.com") with (@PErr unit). change (tag "git://" "git://github.com") with (POk "github.com" tt).
    cbn [palt pbind]. change (till1 (is hash) "git://github.com") with (POk "" "git://github.com"). cbn [pbind]. rewrite H1. cbn [pbind]. unfold url_info. rewrite H2, H3. reflexivity. Qed.
End Parsing.

Section Resolving.
  Variable vparse : string -> option version.
  Variable rparse : string -> option range.
  Variable uparse uhost : string -> option string.
  Variable upath : string -> string.
  Notation parse := (parse_package_spec vparse rparse uparse uhost upath).
  Variable serve : string -> string -> option packument.
  Variable read_dir : string -> option (option string * packument).
  Variable file_name : string -> option string.
  Variable at_base sub : string -> string.
  Variable clone : string -> option string -> option range -> option string.
  Variable untar : gitinfo -> option string.
  Variable https_of ssh_of : gitinfo -> string.
  Variable rsat : range -> version -> bool.
  Variable canon : string -> option string.
  Variable is_any : range -> bool.
  Variable iparse : string -> option string.
  Variable default_tag : string.
  Variable regs : registries.
  Notation resolve memo := (resolve_spec serve read_dir file_name at_base sub clone untar https_of ssh_of rsat canon is_any iparse default_tag regs memo).
  Notation resolves memo := (resolve_all serve read_dir file_name at_base sub clone untar https_of ssh_of rsat canon is_any iparse default_tag regs memo).

  (** C31, resolving a parsed spec crashes in exactly two cases: an alias of a directory, and a hosted repository shorthand
      (owner/repo, github:owner/repo, ...) without a committish. *)
  Theorem C31_resolve_partial : forall memo s sp m, parse s = Ok sp ->
    (fst (resolve memo sp m) = Panic <->
     (exists n p, sp = SAlias n (SDir p)) \/ (exists o p h r, target sp = SGit (GHosted o p h None r None))).
  Proof.
    intros memo s sp m H. rewrite (resolve_panic vparse rparse uparse uhost upath) by (eapply parse_shape; [exact (fun x => x)|exact H]). unfold bare_hosted. split; intros [A | A]; auto; right.
    - destruct A as (i & T & o & p & h & r & ->). eauto 6.
    - destruct A as (o & p & h & r & T). eexists. split; [exact T|eauto 6].
  Qed.
  (** so it does crash on foo/bar and on x@file:./x *)
  Theorem C31_refuted_resolve : forall memo m, (exists sp, parse "foo/bar" = Ok sp /\ fst (resolve memo sp m) = Panic)
    /\ (exists sp, parse "x@file:./x" = Ok sp /\ fst (resolve memo sp m) = Panic).
  Proof.
    intros memo m. split; eexists; (split; [reflexivity|]).
    - apply (proj2 (C31_resolve_partial memo "foo/bar" _ m eq_refl)). right. do 4 eexists. reflexivity.
    - apply (proj2 (C31_resolve_partial memo "x@file:./x" _ m eq_refl)). left. do 2 eexists. reflexivity.
  Qed.

  (** C46: which registry is asked. A package in a scope with its own registry is looked up there, every other in the default
      registry; whatever any registry serves under other names or other registries serve makes no difference; and remembering
      packuments during a run changes no result. *)
  Theorem C46_registry : (forall sc, pick_registry [] sc = npmjs)
    /\ (forall r url sc, pick_registry (set_registry r url) sc = match sc with None => url | Some _ => match rget sc r with Some u => u | None => url end end)
    /\ (forall r scope url sc, pick_registry (scope_registry r scope url) sc = if oseqb sc (Some (strip_at scope)) then url else pick_registry r sc).
  Proof. split; [reflexivity|]. split; [exact registry_default|exact registry_scope]. Qed.
  Theorem C46_scope : forall s sp sc n r, parse s = Ok sp -> target sp = SNpm sc n r ->
    match sc with None => plain_name n | Some sc => exists x, plain_name sc /\ plain_name x /\ n = "@" ++ sc ++ "/" ++ x end.
  Proof.
    intros s sp sc n r H T. apply (parse_shape _ _ _ _ _ (fun x => x)) in H. assert (Sh : npm_shape vparse rparse (SNpm sc n r)).
    { destruct sp as [|a sp| |]; cbn in T; try discriminate; [|now rewrite <- T]. destruct H as [_ H]. destruct sp; cbn in T; try discriminate; [contradiction|now rewrite <- T]. }
    clear - Sh. remember (SNpm sc n r) as q eqn:E. destruct Sh as [n0 r0 Hn Hr|sc0 n0 r0 Hs Hn Hr]; injection E as <- <- <-; [exact Hn|]. exists n0. repeat split; try apply Hs; try apply Hn.
  Qed.
  Theorem C46_local : forall serve' s sc n r, target s = SNpm sc n r -> serve (pick_registry regs sc) n = serve' (pick_registry regs sc) n ->
    fst (resolve false s []) = fst (resolve_spec serve' read_dir file_name at_base sub clone untar https_of ssh_of rsat canon is_any iparse default_tag regs false s []).
  Proof. intros serve' s sc n r T E. eapply resolve_local; eauto. Qed.
  Theorem C46_memo : forall l, Forall (fun sp => exists s, parse s = Ok sp) l -> fst (resolves true l []) = map (fun s => fst (resolve false s [])) l.
  Proof.
    intros l Hl. apply (resolves_memo vparse rparse uparse uhost upath); [|intros ? ? ? ? _ E; discriminate E]. eapply Forall_impl; [|exact Hl]. intros sp (s & H). eapply parse_shape; [exact (fun x => x)|exact H].
  Qed.
End Resolving.

(** ** the hypotheses are met: a registry that knows 1.2.3 and ^1.0.0, and one URL *)
  Definition ex_v123 := mkV 1 2 3 [].
  Definition ex_vp (s : string) : option version := if String.eqb s "1.2.3" then Some ex_v123 else None.
  Definition ex_vs (_ : version) : string := "1.2.3".
  Definition ex_rp (s : string) : option range := if String.eqb s "^1.0.0" || String.eqb s ">=1.0.0 <2.0.0-0" then Some ">=1.0.0 <2.0.0-0" else None.
  Definition ex_up (s : string) : option string := if String.eqb s "https://github.com/foo/bar.git" then Some s else None.
  Definition ex_uh (_ : string) : option string := Some "github.com".
  Definition ex_upa (_ : string) : string := "/foo/bar.git".
  Definition ex_us (_ : string) : string := "https".
  Lemma ex_not_git s : String.get 0 s = Some "1"%char \/ String.get 0 s = Some ">"%char -> ~ starts "git+" s.
  Proof. intros H (q & r & -> & Hq). destruct q as [|c q]; [discriminate|]. cbn in Hq. injection Hq as Hc _. cbn in H. destruct H as [H | H]; injection H as ->; discriminate Hc. Qed.
  Lemma ex_printing : semver_printing ex_vp ex_vs ex_rp.
  Proof.
    constructor.
    - intros s v. unfold ex_vp. destruct (String.eqb s "1.2.3"); [|discriminate]. intros H. injection H as <-. reflexivity.
    - intros s v _. repeat split; try discriminate; try reflexivity. apply ex_not_git. now left.
    - intros s r. unfold ex_rp. destruct (String.eqb s "^1.0.0" || _); [|discriminate]. intros H. injection H as <-. reflexivity.
    - intros s r. unfold ex_rp. destruct (String.eqb s "^1.0.0" || _); [|discriminate]. intros H. injection H as <-. repeat split; try discriminate; try reflexivity. apply ex_not_git. now right.
  Qed.
  Lemma ex_urls : url_printing ex_up.
  Proof.
    constructor; intros s u; unfold ex_up; destruct (String.eqb s "https://github.com/foo/bar.git") eqn:E; try discriminate; intros H; injection H as <-.
    - now rewrite E.
    - auto.
    - intros ->. discriminate E.
  Qed.
  Notation ex_parse := (parse_package_spec ex_vp ex_rp ex_up ex_uh ex_upa).
  Notation ex_show := (show_spec ex_vs ex_us).
  (* an alias, a range, a hosted URL with a committish, a shorthand, a path, a ex_scoped tag: each parses and is plain *)
  Example ex_plain_cases : Forall (fun s => exists sp, ex_parse s = Ok sp /\ plain_spec ex_vp ex_up ex_uh ex_upa ex_us sp)
    ["foo@npm:@bar/baz@^1.0.0"; "foo@^1.0.0"; "git+https://github.com/foo/bar.git#abc"; "github:foo/bar#semver:^1.0.0"; "file:../x"; "@a/b@latest"; "foo@1.2.3"].
  Proof.
    repeat constructor; eexists; (split; [reflexivity|]); cbn; repeat split; try reflexivity; try discriminate; try (intros (t & E); discriminate).
    intros t E (u & F). injection E as <-. discriminate.
  Qed.
  Example ex_show_alias : match ex_parse "foo@npm:@bar/baz@^1.0.0" with Ok sp => ex_show sp | _ => "" end = "foo@npm:@bar/baz@>=1.0.0 <2.0.0-0".
  Proof. reflexivity. Qed.
  Example ex_prefixes : starts "npm:" "NPM:foo" /\ starts "github:" "GitHub:foo/bar" /\ ex_parse "GitHub:foo/bar" = Ok (SGit (GHosted "foo" "bar" GitHub None None None)).
  Proof. split; [exists "NPM:", "foo"; auto|]. split; [exists "GitHub:", "foo/bar"; auto|reflexivity]. Qed.
  Example ex_names : plain_name "foo" /\ package_name "@foo/bar" /\ ~ starts_dot "foo".
  Proof. split; [split; [discriminate|reflexivity]|]. split; [apply (pn_scoped "foo" "bar"); split; try discriminate; reflexivity|intros (t & E); discriminate]. Qed.
  (* "@foo/bar" is asked of the registry of scope foo *)
  Example ex_scoped : pick_registry (scope_registry (set_registry [] "https://default/") "@foo" "https://foo/") (Some "foo") = "https://foo/"
    /\ pick_registry (scope_registry (set_registry [] "https://default/") "@foo" "https://foo/") (Some "bar") = "https://default/".
  Proof. split; reflexivity. Qed.
  Definition ex_pk := mkPack [(ex_v123, mkVm (Some ex_v123) (Some "https://foo/bar.tgz") None None)] [("latest", ex_v123)].
  Example ex_resolves_ex : fst (resolve_all (fun u n => if String.eqb u "https://foo/" && String.eqb n "@foo/bar" then Some ex_pk else None) (fun _ => None) (fun _ => None) (fun x => x) (fun x => x) (fun _ _ _ => None)
      (fun _ => None) (fun _ => "") (fun _ => "") (fun _ _ => true) (fun _ => None) (fun _ => false) (fun _ => None) "latest"
      (scope_registry [] "@foo" "https://foo/") true [SNpm (Some "foo") "@foo/bar" None; SAlias "x" (SNpm (Some "foo") "@foo/bar" (Some (VVersion ex_v123)))] [])
    = [Ok (mkPkg "@foo/bar" (SNpm (Some "foo") "@foo/bar" None) (RNpm "@foo/bar" ex_v123 "https://foo/bar.tgz" None));
       Ok (mkPkg "x" (SAlias "x" (SNpm (Some "foo") "@foo/bar" (Some (VVersion ex_v123)))) (RNpm "x" ex_v123 "https://foo/bar.tgz" None))].
  Proof. reflexivity. Qed.

Print Assumptions C30_partial. Print Assumptions C30_npm_partial. Print Assumptions C30_refuted. Print Assumptions C30_refuted_npm. Print Assumptions C30_refuted_ssh.
Print Assumptions C31_target. Print Assumptions C31_prefix. Print Assumptions C31_alias. Print Assumptions C31_plain. Print Assumptions C31_refuted_path. Print Assumptions C31_parse_partial.
Print Assumptions C31_refuted_parse. Print Assumptions C31_resolve_partial. Print Assumptions C31_refuted_resolve.
Print Assumptions C46_registry. Print Assumptions C46_scope. Print Assumptions C46_local. Print Assumptions C46_memo.
